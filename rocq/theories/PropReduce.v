(* Properties of reduction and accumulation (C01-C14, C66, C67).
   [None] is the ZeroDivisionError raised when a total weight becomes zero. *)
From Verif Require Import Base BaseLemmas ModelPush ModelPushCov ModelKernels ModelAccum Spec
  ProofPush ProofPushCov Laws ProofKernels ProofSpec ProofReduce Checks.
From Coq Require Import Permutation.
Local Open Scope Qc_scope.

(* samples used in the examples: values 1, 4, -2, 7 with weights 2, 0, 1/2, 3 *)
Definition ex1 : list (Qc * Qc) := [(qz 1, qz 2); (qz 4, qz 0); (qz (-2), fr 1 2); (qz 7, qz 3)].
Definition ex2 : list ((Qc * Qc) * Qc) :=
  [((qz 1, qz 3), qz 2); ((qz 4, qz 9), qz 0); ((qz (-2), qz 5), fr 1 2); ((qz 7, qz (-1)), qz 3)].
Lemma ex1_nonneg : all_nonneg (map snd ex1).
Proof. qlist. Qed.
Lemma ex2_nonneg : all_nonneg (map snd ex2).
Proof. qlist. Qed.

(* ---- C01 ------------------------------------------------------------------- *)

Theorem reduce_vals_is_weighted_moments : forall nmax n s, (1 <= n <= nmax)%nat ->
  running_ok (map snd s) -> ~ all_zero (map snd s) ->
  W1 s <> 0 /\ reduce_vals (pusher1 nmax n) s = Some (moments_of n s).
Proof.
  intros nmax n s H R NZ. assert (N : W1 s <> 0).
  { intros Z. apply NZ. apply running_total0; [exact R|]. now rewrite W1_map. }
  split; [exact N|]. now apply reduce_vals1_ok.
Qed.
Theorem reduce_vals_no_weight : forall nmax n s, (1 <= n <= nmax)%nat ->
  all_zero (map snd s) -> reduce_vals (pusher1 nmax n) s = Some (zeros1 (S n)).
Proof. intros nmax n s H Z. exact (reduce_zero_gen (laws1 nmax n H) s Z). Qed.
Theorem reduce_vals_zero_division : forall nmax n s, (1 <= n <= nmax)%nat ->
  ~ running_ok (map snd s) -> reduce_vals (pusher1 nmax n) s = None.
Proof. intros nmax n s H Z. exact (reduce_none_gen (laws1 nmax n H) s Z). Qed.
(* nonnegative weights always satisfy the guard *)
Theorem nonnegative_weights_running_ok : forall ws, all_nonneg ws -> running_ok ws.
Proof. exact nonneg_running. Qed.

Example reduce_vals_ex : (1 <= 4 <= 5)%nat /\ running_ok (map snd ex1) /\ ~ all_zero (map snd ex1) /\
  oeqb eqb1 (reduce_vals (pusher1 5 4) ex1) (Some (moments_of 4 ex1)) = true /\
  eqb1 (moments_of 2 ex1) [fr 11 2; qz 4; fr 126 11] = true.
Proof.
  split; [lia|]. split; [apply nonneg_running, ex1_nonneg|].
  split; [intros H; inversion H; discriminate|]. split; vm_compute; reflexivity.
Qed.
(* negative weights are covered too: 3 then -1 then 4 *)
Example reduce_vals_ex_negative : running_ok [qz 3; qz (-1); qz 4] /\
  ~ running_ok [qz 3; qz (-3); qz 4].
Proof.
  split.
  - apply running_ok_nv. cbn. repeat split; intros _; apply qc_neq; reflexivity.
  - rewrite running_ok_nv. cbn. intros (_ & H & _). apply H; [apply qc_neq; reflexivity|apply qc_eq; reflexivity].
Qed.

(* ---- C02 ------------------------------------------------------------------- *)

Theorem reduce_vals_pairs_is_weighted_comoments : forall nmax n0 n1 s,
  (1 <= n0 <= nmax)%nat -> (1 <= n1 <= nmax)%nat ->
  running_ok (map snd s) -> ~ all_zero (map snd s) ->
  W2 s <> 0 /\ reduce_vals (pusher2 nmax n0 n1) s = Some (comoments_of n0 n1 s).
Proof.
  intros nmax n0 n1 s H0 H1 R NZ. assert (N : W2 s <> 0).
  { intros Z. apply NZ. apply running_total0; [exact R|]. now rewrite W2_map. }
  split; [exact N|]. now apply reduce_vals2_ok.
Qed.
Theorem reduce_vals_pairs_no_weight : forall nmax n0 n1 s,
  (1 <= n0 <= nmax)%nat -> (1 <= n1 <= nmax)%nat ->
  all_zero (map snd s) -> reduce_vals (pusher2 nmax n0 n1) s = Some (zeros2 (S n0) (S n1)).
Proof. intros nmax n0 n1 s H0 H1 Z. exact (reduce_zero_gen (laws2 nmax n0 n1 H0 H1) s Z). Qed.
Theorem reduce_vals_pairs_zero_division : forall nmax n0 n1 s,
  (1 <= n0 <= nmax)%nat -> (1 <= n1 <= nmax)%nat ->
  ~ running_ok (map snd s) -> reduce_vals (pusher2 nmax n0 n1) s = None.
Proof. intros nmax n0 n1 s H0 H1 Z. exact (reduce_none_gen (laws2 nmax n0 n1 H0 H1) s Z). Qed.

Example reduce_vals_pairs_ex : running_ok (map snd ex2) /\ ~ all_zero (map snd ex2) /\
  oeqb eqb2 (reduce_vals (pusher2 5 2 3) ex2) (Some (comoments_of 2 3 ex2)) = true /\
  qeqb (comoment_entry ex2 1 1) (fr (-84) 11) = true.
Proof.
  split; [apply nonneg_running, ex2_nonneg|].
  split; [intros H; inversion H; discriminate|]. split; vm_compute; reflexivity.
Qed.

(* ---- C03 ------------------------------------------------------------------- *)

(* chunks of samples, nonnegative weights *)
Theorem merge_chunks_of_samples : forall {A V} (K : pusher A V) ok, moment_kernel K ok ->
  forall chunks : list (list (V * Qc)), all_nonneg (map snd (concat chunks)) ->
  exists rs, mapM (reduce_vals K) chunks = Some rs /\ reduce_data K rs = reduce_vals K (concat chunks).
Proof.
  intros A V K ok HK chunks H. destruct (kernel_laws K ok HK) as (I & L & E).
  assert (M : mapM (reduce_vals K) chunks = mapM (reduce_data K) (map (map (pt L)) chunks)).
  { rewrite mapM_map. apply mapM_ext. intros. apply (reduce_vals_points L). }
  assert (P : Forall (Pos L) (concat (map (map (pt L)) chunks))).
  { rewrite <- concat_map. apply pts_Pos. unfold all_nonneg in H; now rewrite Forall_map in H. }
  destruct (reduce_concat L _ P) as (rs & E1 & _ & _ & _ & E2).
  exists rs. rewrite M. split; [exact E1|]. rewrite E2, (reduce_vals_points L), concat_map. reflexivity.
Qed.
(* chunks of rows and arbitrary weights: whenever no total vanishes on either way *)
Theorem merge_chunks_of_rows : forall {A V} (K : pusher A V) ok, moment_kernel K ok ->
  forall (chunks : list (list A)) rs, Forall (Forall ok) chunks ->
  mapM (reduce_data K) chunks = Some rs ->
  running_ok (map (p_wt K) rs) -> running_ok (map (p_wt K) (concat chunks)) ->
  reduce_data K rs = reduce_data K (concat chunks).
Proof.
  intros A V K ok HK chunks rs H E0 R1 R2. destruct (kernel_laws K ok HK) as (I & L & E).
  apply (reduce_chunks L); auto. revert H. apply Forall_impl. intros l. now apply ok_wf.
Qed.

Example merge_chunks_ex : all_nonneg (map snd (concat [[(qz 1, qz 2)]; []; [(qz 5, qz 0); (qz 3, qz 1)]])) /\
  oeqb eqb1 (obind (mapM (reduce_vals (pusher1 5 3)) [[(qz 1, qz 2)]; []; [(qz 5, qz 0); (qz 3, qz 1)]])
                   (reduce_data (pusher1 5 3)))
            (Some [qz 3; fr 5 3; fr 8 9; fr 16 27]) = true.
Proof. split; [qlist|]. vm_compute. reflexivity. Qed.

(* ---- C04 ------------------------------------------------------------------- *)

Theorem reduce_vals_order_irrelevant : forall {A V} (K : pusher A V) ok, moment_kernel K ok ->
  forall s s', Permutation s s' -> running_ok (map snd s) -> running_ok (map snd s') ->
  reduce_vals K s = reduce_vals K s'.
Proof.
  intros A V K ok HK s s' H R R'. destruct (kernel_laws K ok HK) as (I & L & E).
  rewrite !(reduce_vals_points L). apply (reduce_same_sum L).
  - apply pts_wf.
  - apply pts_wf.
  - rewrite pts_wts. now apply running_ok_nv.
  - rewrite pts_wts. now apply running_ok_nv.
  - intros i _. apply suml_perm. now apply Permutation_map.
Qed.
Theorem reduce_data_order_irrelevant : forall {A V} (K : pusher A V) ok, moment_kernel K ok ->
  forall data data', Permutation data data' -> Forall ok data ->
  running_ok (map (p_wt K) data) -> running_ok (map (p_wt K) data') ->
  reduce_data K data = reduce_data K data'.
Proof.
  intros A V K ok HK d d' H W R R'. destruct (kernel_laws K ok HK) as (I & L & E).
  assert (W' : Forall ok d') by now rewrite <- H.
  apply (reduce_same_sum L); try (eapply ok_wf; eauto); try now apply running_ok_nv.
  intros i _. now apply suml_perm.
Qed.
Theorem nonnegative_order_irrelevant : forall {A V} (K : pusher A V) ok, moment_kernel K ok ->
  forall data data', Permutation data data' -> rows_ok K ok data -> reduce_data K data = reduce_data K data'.
Proof.
  intros A V K ok HK d d' H P. destruct (kernel_laws K ok HK) as (I & L & E).
  apply (reduce_perm L); [exact H|]. eapply rows_ok_Pos; eauto.
Qed.
Example order_ex : Permutation ex1 (rev ex1) /\ running_ok (map snd ex1) /\ running_ok (map snd (rev ex1)) /\
  oeqb eqb1 (reduce_vals (pusher1 5 5) ex1) (reduce_vals (pusher1 5 5) (rev ex1)) = true.
Proof.
  split; [apply Permutation_rev|]. split; [apply nonneg_running, ex1_nonneg|].
  split; [apply nonneg_running; qlist|]. vm_compute. reflexivity.
Qed.

(* ---- C05 ------------------------------------------------------------------- *)

(* the samples an operation stands for: rows pushed as data are themselves
   reductions of the listed samples *)
Inductive pushes {A V} (K : pusher A V) : push_op (A := A) (V := V) -> list (V * Qc) -> Prop :=
| pu_val x w : pushes K (PushVal x w) [(x, w)]
| pu_vals xw : pushes K (PushVals xw) xw
| pu_data d xw : reduce_vals K xw = Some d -> pushes K (PushData d) xw
| pu_datas ds xws : mapM (reduce_vals K) xws = Some ds -> pushes K (PushDatas ds) (concat xws).

Lemma pushes_rows {A V I} {K : pusher A V} (L : laws K I) op xw : pushes K op xw -> all_nonneg (map snd xw) ->
  op_wf L op /\ Forall (Pos L) (op_rows L op) /\
  forall i, l_dom L i -> sumphi L (op_rows L op) i = sumphi L (map (pt L) xw) i.
Proof.
  intros H P. assert (PP : Forall (Pos L) (map (pt L) xw)) by (apply pts_Pos; unfold all_nonneg in P; now rewrite Forall_map in P).
  destruct H as [x w|xw|d xw E|ds xws E]; cbn [op_wf op_rows].
  - auto.
  - auto.
  - rewrite (reduce_vals_points L) in E. destruct (reduce_pos L _ PP) as (r & E' & C & T & S).
    rewrite E in E'. injection E' as <-. split; [exact Logic.I|]. split.
    + constructor; [|constructor]. split; [apply C|]. rewrite T. now apply (Pos_sumwt L).
    + intros i Hi. unfold sumphi at 1. rewrite suml_cons, suml_nil, S by exact Hi. ring.
  - rewrite (mapM_ext _ (fun l => reduce_data K (map (pt L) l))) in E by (intros; apply (reduce_vals_points L)).
    rewrite <- mapM_map in E.
    assert (PC : Forall (Pos L) (concat (map (map (pt L)) xws))) by now rewrite <- concat_map.
    destruct (reduce_concat L _ PC) as (rs & E' & Pr & _ & S & _). rewrite E in E'. injection E' as <-.
    split; [exact Logic.I|]. split; [exact Pr|]. intros i Hi. rewrite S by exact Hi. now rewrite concat_map.
Qed.

Theorem any_push_history_is_one_reduction : forall {A V} (K : pusher A V) ok, moment_kernel K ok ->
  forall (ops : list push_op) (xws : list (list (V * Qc))),
  Forall2 (pushes K) ops xws -> all_nonneg (map snd (concat xws)) ->
  run_ops K ops (p_zero K) = reduce_vals K (concat xws).
Proof.
  intros A V K ok HK ops xws H P. destruct (kernel_laws K ok HK) as (I & L & E).
  assert (G : Forall (op_wf L) ops /\ Forall (Pos L) (concat (map (op_rows L) ops)) /\
    forall i, l_dom L i -> sumphi L (concat (map (op_rows L) ops)) i = sumphi L (map (pt L) (concat xws)) i).
  { induction H as [|op xw ops xws Ho Hs IH]; cbn [map concat].
    - repeat split; constructor.
    - cbn [concat] in P. rewrite map_app in P. apply Forall_app in P. destruct P as [P1 P2].
      destruct (pushes_rows L op xw Ho P1) as (W & R & S). destruct (IH P2) as (W' & R' & S').
      split; [now constructor|]. split; [now apply Forall_app|]. intros i Hi.
      rewrite map_app. unfold sumphi in *. rewrite !suml_app, S, S' by exact Hi. reflexivity. }
  destruct G as (W & R & S). rewrite (run_ops_rows L) by exact W. rewrite (reduce_vals_points L).
  fold (reduce_data K (concat (map (op_rows L) ops))).
  apply (reduce_same_sum L); auto using (Pos_wf L), (Pos_nv L), pts_wf.
  rewrite pts_wts. apply running_ok_nv. now apply nonneg_running.
Qed.

(* without any assumption on weights, and including the error outcome: the
   state after a history is the state after pushing its rows one by one *)
Theorem push_history_is_row_by_row : forall {A V} (K : pusher A V) ok, moment_kernel K ok ->
  exists point : V -> Qc -> A,
  (forall x w, ok (point x w) /\ p_wt K (point x w) = w /\ reduce_vals K [(x, w)] = reduce_data K [point x w]) /\
  forall (ops : list push_op) o,
  Forall (fun op => match op with PushDataScale d _ => ok d | _ => True end) ops ->
  run_ops K ops o = foldM (fun o d => p_push_data K d o)
    (concat (map (fun op => match op with
                  | PushVal x w => [point x w]
                  | PushVals xw => map (fun p => point (fst p) (snd p)) xw
                  | PushData d => [d]
                  | PushDataScale d s => [reweight K s d]
                  | PushDatas ds => ds end) ops)) o.
Proof.
  intros A V K ok HK. destruct (kernel_laws K ok HK) as (I & L & E). exists (l_point L).
  assert (Hp : forall x w o, p_push_val K x w o = p_push_data K (l_point L x w) o) by apply (l_val _ _ L).
  split.
  { intros x w. split; [apply E, (l_point_wf _ _ L)|]. split; [apply (l_point_wt _ _ L)|].
    exact (reduce_vals_points L [(x, w)]). }
  intros ops. set (point := l_point L) in *.
  induction ops as [|op ops IH]; intros o H; [reflexivity|]. inversion H as [|? ? H1 H2]; subst.
  unfold run_ops. cbn [foldM map concat]. rewrite foldM_app.
  assert (G : run_op K o op = foldM (fun o d => p_push_data K d o)
     (match op with PushVal x w => [point x w] | PushVals xw => map (fun p => point (fst p) (snd p)) xw
      | PushData d => [d] | PushDataScale d s => [reweight K s d] | PushDatas ds => ds end) o).
  { destruct op as [x w|xw|d|d s|ds]; cbn [run_op foldM].
    - rewrite Hp. now destruct (p_push_data K _ o).
    - rewrite foldM_map. apply foldM_ext. intros. apply Hp.
    - now destruct (p_push_data K _ o).
    - rewrite (pushs_scaled L) by now apply E. unfold scaled, reweight. now destruct (p_push_data K _ o).
    - reflexivity. }
  rewrite G. destruct (foldM _ _ o) as [o'|]; cbn [obind]; [|reflexivity]. now apply IH.
Qed.

Example history_ex :
  let K := pusher1 5 3 in
  exists d, reduce_vals K [(qz 1, qz 2); (qz 3, qz 1)] = Some d /\
  Forall2 (pushes K) [PushVal (qz 5) (qz 1); PushData d; PushVals ex1] [[(qz 5, qz 1)]; [(qz 1, qz 2); (qz 3, qz 1)]; ex1] /\
  all_nonneg (map snd (concat [[(qz 5, qz 1)]; [(qz 1, qz 2); (qz 3, qz 1)]; ex1])) /\
  oeqb eqb1 (run_ops K [PushVal (qz 5) (qz 1); PushData d; PushVals ex1] (p_zero K))
            (reduce_vals K ((qz 5, qz 1) :: (qz 1, qz 2) :: (qz 3, qz 1) :: ex1)) = true.
Proof.
  cbv zeta. eexists. split; [reflexivity|]. split.
  - constructor; [constructor|]. constructor; [now constructor|]. constructor; [constructor|constructor].
  - split; [qlist|]. vm_compute. reflexivity.
Qed.

(* ---- C06 ------------------------------------------------------------------- *)

Theorem add_commutative : forall {A V} (K : pusher A V) ok, moment_kernel K ok ->
  forall a b, ok a -> ok b -> clean K a -> clean K b ->
  (p_wt K a <> 0 -> p_wt K b <> 0 -> p_wt K a + p_wt K b <> 0) ->
  acc_add K a b = acc_add K b a.
Proof.
  intros A V K ok HK a b Ha Hb Ca Cb H. destruct (kernel_laws K ok HK) as (I & L & E).
  unfold acc_add. symmetry. apply (push_comm L); auto; split; auto; now apply E.
Qed.
Theorem add_associative : forall {A V} (K : pusher A V) ok, moment_kernel K ok ->
  forall a b c, ok a -> ok b -> ok c -> clean K a -> clean K b -> clean K c ->
  0 <= p_wt K a -> 0 <= p_wt K b -> 0 <= p_wt K c ->
  exists ab bc r, acc_add K a b = Some ab /\ acc_add K b c = Some bc /\
    acc_add K ab c = Some r /\ acc_add K a bc = Some r.
Proof.
  intros A V K ok HK a b c Ha Hb Hc Ca Cb Cc Pa Pb Pc. destruct (kernel_laws K ok HK) as (I & L & E).
  destruct (push_assoc L a b c) as (ab & bc & r & E1 & E2 & E3 & E4 & _); auto;
    try (split; [now apply E|assumption]).
  exists ab, bc, r. auto.
Qed.
Theorem add_zero_right : forall {A V} (K : pusher A V) ok, moment_kernel K ok ->
  forall a, acc_add K a (p_zero K) = Some a.
Proof.
  intros A V K ok HK a. destruct (kernel_laws K ok HK) as (I & L & E).
  apply (l_push_zero _ _ L), (l_wt_zero _ _ L).
Qed.
Theorem add_zero_left : forall {A V} (K : pusher A V) ok, moment_kernel K ok ->
  forall a, ok a -> clean K a -> acc_add K (p_zero K) a = Some a.
Proof.
  intros A V K ok HK a Ha Ca. destruct (kernel_laws K ok HK) as (I & L & E).
  apply (push_into_zero_can L). split; [now apply E|exact Ca].
Qed.
(* an array of weight zero that still carries moments breaks the left identity *)
Theorem add_zero_left_unclean_refuted : exists a, length a = 3%nat /\ getq a 0 = 0 /\
  acc_add (pusher1 5 2) (zeros1 3) a = Some (zeros1 3) /\ a <> zeros1 3.
Proof.
  exists (lz [0; 5; 1]%Z). split; [reflexivity|]. split; [reflexivity|]. split.
  - apply oeqb1_eq. vm_compute. reflexivity.
  - apply eqb1_neq. vm_compute. reflexivity.
Qed.
Example add_ex : let K := pusher1 5 2 in let a := lz [2; 5; 1]%Z in let b := lz [3; -1; 4]%Z in
  length a = 3%nat /\ length b = 3%nat /\ clean K a /\ clean K b /\ 0 <= p_wt K a /\ 0 <= p_wt K b /\
  oeqb eqb1 (acc_add K a b) (Some [qz 5; fr 7 5; fr 286 25]) = true.
Proof. cbv zeta. repeat split; try qle. Qed.

(* ---- C07 ------------------------------------------------------------------- *)

Theorem subtract_undoes_add : forall {A V} (K : pusher A V) ok, moment_kernel K ok ->
  forall a b, ok a -> ok b -> p_wt K a <> 0 -> p_wt K a + p_wt K b <> 0 ->
  exists c, acc_add K a b = Some c /\ acc_sub K c b = Some a.
Proof.
  intros A V K ok HK a b Ha Hb Na Nab. destruct (kernel_laws K ok HK) as (I & L & E).
  apply E in Ha. apply E in Hb.
  destruct (push_ok L b a Hb Ha) as (r & Er & _); [auto|].
  exists r. split; [exact Er|]. now apply (sub_add L).
Qed.
Theorem subtract_then_add : forall {A V} (K : pusher A V) ok, moment_kernel K ok ->
  forall a b, ok a -> ok b -> p_wt K a <> 0 -> p_wt K a - p_wt K b <> 0 ->
  exists c, acc_sub K a b = Some c /\ acc_add K c b = Some a.
Proof.
  intros A V K ok HK a b Ha Hb Na Nab. destruct (kernel_laws K ok HK) as (I & L & E).
  apply E in Ha. apply E in Hb.
  destruct (push_remove L b a Hb Ha) as (r & Er & Wr & Tr & Pr & _).
  { intros _ Eq. apply Nab. rewrite Eq. ring. }
  exists r. split; [exact Er|]. destruct (push_ok L b r Hb Wr) as (r' & Er' & Wr' & Tr' & Pr' & _).
  { intros _. rewrite Tr. replace (p_wt K a - p_wt K b + p_wt K b) with (p_wt K a) by ring. exact Na. }
  unfold acc_add. rewrite Er'. f_equal. symmetry. apply (phi_inj L); auto.
  intros i Hi. rewrite Pr', Pr by exact Hi. ring.
Qed.
Theorem subtract_equal_weight_zero_division : forall {A V} (K : pusher A V) ok, moment_kernel K ok ->
  forall a b, ok a -> ok b -> p_wt K b <> 0 -> p_wt K a = p_wt K b -> acc_sub K a b = None.
Proof.
  intros A V K ok HK a b Ha Hb Na Ew. destruct (kernel_laws K ok HK) as (I & L & E).
  apply (push_remove_none L); auto; now apply E.
Qed.
Example subtract_ex : let K := pusher1 5 2 in let a := lz [2; 5; 1]%Z in let b := lz [3; -1; 4]%Z in
  p_wt K a <> 0 /\ p_wt K a + p_wt K b <> 0 /\
  oeqb eqb1 (obind (acc_add K a b) (fun c => acc_sub K c b)) (Some a) = true /\ acc_sub K a a = None.
Proof. cbv zeta. repeat split; try (apply qc_neq; reflexivity). Qed.

(* ---- C08 ------------------------------------------------------------------- *)

Theorem zero_weight_push_no_effect : forall {A V} (K : pusher A V) ok, moment_kernel K ok ->
  forall (o : A), (forall x, p_push_val K x 0 o = Some o) /\
  (forall d, p_wt K d = 0 -> p_push_data K d o = Some o) /\
  (forall d s, ok d -> p_wt K d * s = 0 -> p_push_data_scale K d s o = Some o).
Proof.
  intros A V K ok HK o. destruct (kernel_laws K ok HK) as (I & L & E). split; [|split].
  - intros x. rewrite (l_val _ _ L). apply (l_push_zero _ _ L), (l_point_wt _ _ L).
  - intros d Z. now apply (l_push_zero _ _ L).
  - intros d s Hd Z. apply E in Hd. rewrite (pushs_scaled L) by exact Hd. apply (l_push_zero _ _ L).
    now rewrite (scaled_wt L).
Qed.
Theorem drop_zero_weight_samples : forall {A V} (K : pusher A V) ok, moment_kernel K ok ->
  forall xw o, reduce_vals_into K (filter (fun s => negb (qeqb (snd s) 0)) xw) o = reduce_vals_into K xw o.
Proof.
  intros A V K ok HK xw o. destruct (kernel_laws K ok HK) as (I & L & E). apply (reduce_vals_into_filter L).
Qed.
Theorem drop_zero_weight_rows : forall {A V} (K : pusher A V) ok, moment_kernel K ok ->
  forall data o, reduce_data_into K (filter (fun d => negb (qeqb (p_wt K d) 0)) data) o = reduce_data_into K data o.
Proof.
  intros A V K ok HK xw o. destruct (kernel_laws K ok HK) as (I & L & E). apply (reduce_into_filter L).
Qed.
Theorem drop_zero_weight_group_rows : forall {A V} (K : pusher A V) ok, moment_kernel K ok ->
  forall gd out, Forall (fun s => (Z.to_nat (fst s) < length out)%nat) gd ->
  reduce_data_grouped_into K (filter (fun s => negb (qeqb (p_wt K (snd s)) 0)) gd) out
  = reduce_data_grouped_into K gd out.
Proof.
  intros A V K ok HK gd. destruct (kernel_laws K ok HK) as (I & L & E).
  unfold reduce_data_grouped_into. induction gd as [|[z d] t IH]; intros out H; [reflexivity|].
  inversion H as [|? ? Hz Ht]; subst. cbn [filter foldM snd fst] in *.
  destruct (qeqb_spec (p_wt K d) 0) as [Z|N]; cbn [negb].
  - unfold grouped_step at 2. destruct (0 <=? z)%Z.
    + rewrite (l_push_zero _ _ L d _ Z). cbn [obind]. rewrite upd_id. now apply IH.
    + cbn [obind]. now apply IH.
  - cbn [foldM]. destruct (grouped_step K out (z, d)) as [o|] eqn:Eg; cbn [obind]; [|reflexivity].
    apply IH. unfold grouped_step in Eg. destruct (0 <=? z)%Z.
    + destruct (p_push_data K d _); cbn [obind] in Eg; [|discriminate]. injection Eg as <-.
      rewrite upd_length. exact Ht.
    + injection Eg as <-. exact Ht.
Qed.
Example zero_weight_ex : oeqb eqb1 (p_push_data (pusher1 5 2) (lz [0; 99; 7]%Z) (lz [2; 5; 1]%Z)) (Some (lz [2; 5; 1]%Z)) = true
  /\ length (filter (fun s => negb (qeqb (snd s) 0)) ex1) = 3%nat.
Proof. vm_compute. auto. Qed.

(* ---- C09 ------------------------------------------------------------------- *)

Theorem scaling_weights_of_samples : forall {A V} (K : pusher A V) ok, moment_kernel K ok ->
  forall s xw, s <> 0 ->
  reduce_vals K (map (fun p => (fst p, snd p * s)) xw) = option_map (reweight K s) (reduce_vals K xw).
Proof.
  intros A V K ok HK s xw N. destruct (kernel_laws K ok HK) as (I & L & E). now apply (reduce_vals_scaled L).
Qed.
Theorem scaling_weights_of_rows : forall {A V} (K : pusher A V) ok, moment_kernel K ok ->
  forall s data, s <> 0 -> Forall ok data ->
  reduce_data K (map (reweight K s) data) = option_map (reweight K s) (reduce_data K data).
Proof.
  intros A V K ok HK s data N H. destruct (kernel_laws K ok HK) as (I & L & E).
  apply (reduce_scaled L); auto. eapply ok_wf; eauto.
Qed.
(* what changing the weight does to an array: entry 0 only *)
Theorem mul_changes_only_the_weight :
  (forall nmax n a s k, length a = S n ->
     getq (acc_mul (pusher1 nmax n) a s) k = if Nat.eqb k 0 then getq a 0 * s else getq a k) /\
  (forall nmax n0 n1 a s i j, shape2 (S n0) (S n1) a ->
     get2 (acc_mul (pusher2 nmax n0 n1) a s) i j
     = if (Nat.eqb i 0 && Nat.eqb j 0)%bool then get2 a 0 0 * s else get2 a i j).
Proof.
  split.
  - intros nmax n a s k H. unfold acc_mul. cbn [pusher1 p_setwt p_wt].
    destruct k as [|k]; cbn [Nat.eqb].
    + apply getq_upd_same. lia.
    + apply getq_upd_other. lia.
  - intros nmax n0 n1 a s i j H. unfold acc_mul. cbn [pusher2 p_setwt p_wt].
    destruct i as [|i], j as [|j]; cbn [Nat.eqb andb]; try (apply get2_upd2_other; congruence).
    apply (get2_upd2_same (S n0) (S n1)); auto; lia.
Qed.
Example scaling_ex : qz 3 <> 0 /\
  oeqb eqb1 (reduce_vals (pusher1 5 3) (map (fun p => (fst p, snd p * qz 3)) ex1))
            (Some (upd (moments_of 3 ex1) 0 (fr 33 2))) = true.
Proof. split; [apply qc_neq; reflexivity|]. vm_compute. reflexivity. Qed.

(* ---- C10 ------------------------------------------------------------------- *)

Theorem integer_scale_is_repetition : forall {A V} (K : pusher A V) ok, moment_kernel K ok ->
  forall d o k, ok d -> ok o -> 0 <= p_wt K d -> 0 <= p_wt K o ->
  p_push_data_scale K d (qn k) o = reduce_data_into K (repeat d k) o.
Proof.
  intros A V K ok HK d o k Hd Ho Pd Po. destruct (kernel_laws K ok HK) as (I & L & E).
  apply (push_scale_repeat_gen L); auto; now apply E.
Qed.
Theorem integer_weight_is_repetition : forall {A V} (K : pusher A V) ok, moment_kernel K ok ->
  forall s : list (nat * (V * Qc)), Forall (fun p => 0 <= snd (snd p)) s ->
  reduce_vals K (map (fun p => (fst (snd p), qn (fst p) * snd (snd p))) s)
  = reduce_vals K (concat (map (fun p => repeat (snd p) (fst p)) s)).
Proof.
  intros A V K ok HK s H. destruct (kernel_laws K ok HK) as (I & L & E). now apply (reduce_vals_counts L).
Qed.
Example repetition_ex :
  oeqb eqb1 (p_push_data_scale (pusher1 5 2) (lz [2; 5; 1]%Z) (qn 3) (lz [1; 0; 4]%Z))
            (reduce_data_into (pusher1 5 2) (repeat (lz [2; 5; 1]%Z) 3) (lz [1; 0; 4]%Z)) = true /\
  p_push_data_scale (pusher1 5 2) (lz [2; 5; 1]%Z) (qn 3) (lz [1; 0; 4]%Z) <> None.
Proof. split; [vm_compute; reflexivity|]. vm_compute. discriminate. Qed.

(* ---- C11 ------------------------------------------------------------------- *)

(* utils.py vals_to_data: entry 0 is the weight, the mean entries the values,
   all other entries zero *)
Definition row_of_val (n : nat) (p : Qc * Qc) : arr := snd p :: fst p :: zeros1 (n - 1).
Definition mat_of_val (n0 n1 : nat) (p : (Qc * Qc) * Qc) : arr2 :=
  upd2 (upd2 (upd2 (zeros2 (S n0) (S n1)) 0 0 (snd p)) 1 0 (fst (fst p))) 0 1 (snd (fst p)).

Theorem vals_as_rows_one : forall nmax n xw o, (1 <= n <= nmax)%nat ->
  reduce_vals_into (pusher1 nmax n) xw o = reduce_data_into (pusher1 nmax n) (map (row_of_val n) xw) o.
Proof. intros nmax n xw o H. exact (reduce_vals_points_into (laws1 nmax n H) xw o). Qed.
Theorem vals_as_rows_two : forall nmax n0 n1 xw o, (1 <= n0 <= nmax)%nat -> (1 <= n1 <= nmax)%nat ->
  reduce_vals_into (pusher2 nmax n0 n1) xw o = reduce_data_into (pusher2 nmax n0 n1) (map (mat_of_val n0 n1) xw) o.
Proof. intros nmax n0 n1 xw o H0 H1. exact (reduce_vals_points_into (laws2 nmax n0 n1 H0 H1) xw o). Qed.
Example vals_as_rows_ex :
  oeqb eqb1 (reduce_data (pusher1 5 3) (map (row_of_val 3) ex1)) (Some (moments_of 3 ex1)) = true.
Proof. vm_compute. reflexivity. Qed.

(* ---- C12 ------------------------------------------------------------------- *)

Theorem affine_change_of_variable : forall nmax n a b s, (1 <= n <= nmax)%nat -> ~ all_zero (map snd s) ->
  reduce_vals (pusher1 nmax n) (map (fun p => (a * fst p + b, snd p)) s)
  = option_map (affine1 a b) (reduce_vals (pusher1 nmax n) s).
Proof. exact reduce_vals1_affine. Qed.
(* affine1 entry by entry *)
Theorem affine1_entries : forall a b m, (2 <= length m)%nat ->
  getq (affine1 a b m) 0 = getq m 0 /\ getq (affine1 a b m) 1 = a * getq m 1 + b /\
  (forall k, (2 <= k)%nat -> getq (affine1 a b m) k = a ^ k * getq m k) /\
  length (affine1 a b m) = length m.
Proof.
  intros a b [|w [|mu cs]]; cbn [length]; try lia. intros _. cbn [affine1]. repeat split.
  - intros k Hk. destruct k as [|[|k]]; try lia. unfold getq. cbn [nth].
    destruct (Nat.lt_ge_cases k (length cs)) as [H|H].
    + rewrite nth_indep with (d' := a ^ fst (0%nat, 0) * snd (0%nat, 0)).
      2:{ rewrite map_length, combine_length, seq_length. lia. }
      rewrite (map_nth (fun p => a ^ fst p * snd p)), combine_nth by apply seq_length. cbn [fst snd].
      now rewrite seq_nth by exact H.
    + rewrite !nth_overflow; [ring| |]; try lia. rewrite map_length, combine_length, seq_length. lia.
  - cbn. now rewrite map_length, combine_length, seq_length, Nat.min_id.
Qed.
Example affine_ex : ~ all_zero (map snd ex1) /\
  oeqb eqb1 (reduce_vals (pusher1 5 3) (map (fun p => (qz (-2) * fst p + qz 7, snd p)) ex1))
            (Some (affine1 (qz (-2)) (qz 7) (moments_of 3 ex1))) = true.
Proof. split; [intros H; inversion H; discriminate|]. vm_compute. reflexivity. Qed.

(* ---- C13 ------------------------------------------------------------------- *)

Theorem lower_order_is_prefix : forall nmax n m s, (1 <= n <= m)%nat -> (m <= nmax)%nat ->
  reduce_vals (pusher1 nmax n) s = option_map (firstn (S n)) (reduce_vals (pusher1 nmax m) s).
Proof. exact reduce_vals1_prefix. Qed.
Theorem lower_order_is_block : forall nmax n0 n1 m0 m1 s, (1 <= n0 <= m0)%nat -> (m0 <= nmax)%nat ->
  (1 <= n1 <= m1)%nat -> (m1 <= nmax)%nat ->
  reduce_vals (pusher2 nmax n0 n1) s
  = option_map (fun a => map (firstn (S n1)) (firstn (S n0) a)) (reduce_vals (pusher2 nmax m0 m1) s).
Proof. exact reduce_vals2_block. Qed.
Example prefix_ex : oeqb eqb1 (reduce_vals (pusher1 5 2) ex1) (Some (firstn 3 (moments_of 5 ex1))) = true.
Proof. vm_compute. reflexivity. Qed.

(* ---- C14 ------------------------------------------------------------------- *)

Theorem marginal_of_x : forall nmax n0 n1 s, (1 <= n0 <= nmax)%nat -> (1 <= n1 <= nmax)%nat ->
  option_map (map (fun r => nth 0 r 0)) (reduce_vals (pusher2 nmax n0 n1) s)
  = reduce_vals (pusher1 nmax n0) (map (fun p => (fst (fst p), snd p)) s).
Proof. exact reduce_marginal_x. Qed.
Theorem marginal_of_y : forall nmax n0 n1 s, (1 <= n0 <= nmax)%nat -> (1 <= n1 <= nmax)%nat ->
  option_map (fun a => nth 0 a []) (reduce_vals (pusher2 nmax n0 n1) s)
  = reduce_vals (pusher1 nmax n1) (map (fun p => (snd (fst p), snd p)) s).
Proof. exact reduce_marginal_y. Qed.
Theorem swapping_transposes : forall nmax n0 n1 s, (1 <= n0 <= nmax)%nat -> (1 <= n1 <= nmax)%nat ->
  reduce_vals (pusher2 nmax n1 n0) (map (fun p => ((snd (fst p), fst (fst p)), snd p)) s)
  = option_map (fun a => map (fun j => map (fun i => get2 a i j) (seq 0 (S n0))) (seq 0 (S n1)))
               (reduce_vals (pusher2 nmax n0 n1) s).
Proof. exact reduce_swap. Qed.
Example marginal_ex : option_map (map (fun r => nth 0 r 0)) (reduce_vals (pusher2 5 3 2) ex2) <> None /\
  oeqb eqb1 (option_map (map (fun r => nth 0 r 0)) (reduce_vals (pusher2 5 3 2) ex2)) (Some (moments_of 3 ex1)) = true.
Proof. vm_compute. split; [discriminate|reflexivity]. Qed.

(* ---- C66 ------------------------------------------------------------------- *)

Theorem even_central_moments_nonnegative : forall nmax n s r, (1 <= n <= nmax)%nat ->
  all_nonneg (map snd s) -> reduce_vals (pusher1 nmax n) s = Some r ->
  forall j, (1 <= j)%nat -> (2 * j <= n)%nat -> 0 <= getq r (2 * j).
Proof.
  intros nmax n s r Hn P E j Hj Hjn.
  destruct (reduce_vals1_cases nmax n s Hn) as [[R E']|[[Z E']|(R & N & E')]]; rewrite E in E'.
  - discriminate.
  - injection E' as ->. rewrite getq_zeros. apply Qcle_refl.
  - injection E' as ->. rewrite moments_of_get by lia. now apply even_central_nonneg.
Qed.
Theorem covariance_cauchy_schwarz : forall nmax n0 n1 s r, (2 <= n0 <= nmax)%nat -> (2 <= n1 <= nmax)%nat ->
  all_nonneg (map snd s) -> reduce_vals (pusher2 nmax n0 n1) s = Some r ->
  get2 r 1 1 * get2 r 1 1 <= get2 r 2 0 * get2 r 0 2.
Proof.
  intros nmax n0 n1 s r H0 H1 P E.
  destruct (reduce_vals2_cases nmax n0 n1 s) as [[R E']|[[Z E']|(R & N & E')]]; try lia; rewrite E in E'.
  - discriminate.
  - injection E' as ->. rewrite !get2_zeros. qle.
  - injection E' as ->. rewrite !comoments_of_get by lia. now apply cov_cauchy_schwarz.
Qed.
Theorem mean_between_samples : forall nmax n s r lo hi, (1 <= n <= nmax)%nat ->
  all_nonneg (map snd s) -> ~ all_zero (map snd s) -> reduce_vals (pusher1 nmax n) s = Some r ->
  (forall p, In p s -> snd p <> 0 -> lo <= fst p /\ fst p <= hi) ->
  lo <= getq r 1 /\ getq r 1 <= hi.
Proof.
  intros nmax n s r lo hi Hn P NZ E B.
  destruct (reduce_vals1_cases nmax n s Hn) as [[R E']|[[Z E']|(R & N & E')]]; rewrite E in E'.
  - discriminate.
  - contradiction.
  - injection E' as ->. now apply mean_bounds.
Qed.
Example inequality_ex : all_nonneg (map snd ex1) /\ all_nonneg (map snd ex2) /\
  (forall p, In p ex1 -> snd p <> 0 -> qz (-2) <= fst p /\ fst p <= qz 7) /\
  reduce_vals (pusher2 5 2 2) ex2 <> None.
Proof.
  split; [apply ex1_nonneg|]. split; [apply ex2_nonneg|]. split; [|vm_compute; discriminate].
  intros p [<-|[<-|[<-|[<-|[]]]]] _; split; qle.
Qed.

(* ---- C67 ------------------------------------------------------------------- *)

Theorem reduce_data_parallel_axis : forall nmax n data r, (1 <= n <= nmax)%nat ->
  Forall (fun d => length d = S n) data ->
  reduce_data (pusher1 nmax n) data = Some r -> getq r 0 <> 0 ->
  let W := suml (fun d => getq d 0) data in
  let M := suml (fun d => getq d 0 * getq d 1) data / W in
  let c d k := match k with O => 1 | S O => 0 | _ => getq d k end in
  getq r 0 = W /\ getq r 1 = M /\
  forall k, (2 <= k <= n)%nat ->
    getq r k = suml (fun d => getq d 0 * sumn (fun b => qn (choose k b) * (getq d 1 - M) ^ b * c d (k - b)%nat) (S k)) data / W.
Proof. exact reduce_data1_formula. Qed.
Theorem reduce_data_parallel_axis_pairs : forall nmax n0 n1 data r, (1 <= n0 <= nmax)%nat -> (1 <= n1 <= nmax)%nat ->
  Forall (shape2 (S n0) (S n1)) data ->
  reduce_data (pusher2 nmax n0 n1) data = Some r -> get2 r 0 0 <> 0 ->
  let W := suml (fun d => get2 d 0 0) data in
  let MX := suml (fun d => get2 d 0 0 * get2 d 1 0) data / W in
  let MY := suml (fun d => get2 d 0 0 * get2 d 0 1) data / W in
  let c d i j := match (i + j)%nat with O => 1 | S O => 0 | _ => get2 d i j end in
  get2 r 0 0 = W /\ get2 r 1 0 = MX /\ get2 r 0 1 = MY /\
  forall i j, (i <= n0)%nat -> (j <= n1)%nat -> (2 <= i + j)%nat ->
    get2 r i j = suml (fun d => get2 d 0 0 *
      sumn (fun a => sumn (fun b => qn (choose i a) * qn (choose j b) *
        ((get2 d 1 0 - MX) ^ a * (get2 d 0 1 - MY) ^ b) * c d (i - a)%nat (j - b)%nat) (S j)) (S i)) data / W.
Proof. exact reduce_data2_formula. Qed.
Theorem law_of_total_variance : forall nmax n data r, (2 <= n <= nmax)%nat ->
  Forall (fun d => length d = S n) data ->
  reduce_data (pusher1 nmax n) data = Some r -> getq r 0 <> 0 ->
  let W := suml (fun d => getq d 0) data in
  let M := suml (fun d => getq d 0 * getq d 1) data / W in
  getq r 2 = suml (fun d => getq d 0 * getq d 2) data / W
           + suml (fun d => getq d 0 * ((getq d 1 - M) * (getq d 1 - M))) data / W.
Proof.
  intros nmax n data r Hn Hw E N W M.
  destruct (reduce_data1_formula nmax n data r ltac:(lia) Hw E N) as (_ & _ & F).
  rewrite (F 2%nat ltac:(lia)). fold W. fold M.
  rewrite (suml_ext _ (fun d => getq d 0 * getq d 2 + getq d 0 * ((getq d 1 - M) * (getq d 1 - M)))).
  - rewrite suml_add. unfold Qcdiv. ring.
  - intros d _. cbn [sumn choose Nat.add Nat.sub nrm Qcpower]. rewrite !qn_1.
    change (qn 0) with 0. ring.
Qed.
Example total_variance_ex : exists r, reduce_data (pusher1 5 2) [lz [2; 5; 1]%Z; lz [3; -1; 4]%Z] = Some r /\
  getq r 0 <> 0 /\ qeqb (getq r 2) (fr 286 25) = true.
Proof.
  eexists. split; [vm_compute; reflexivity|]. split; [apply qc_neq; vm_compute; reflexivity|vm_compute; reflexivity].
Qed.
