(* Push methods of arrays of moments: operands with the moment axes last, cells of
   the object updated in the order of the loop. *)
From Coq Require Import Permutation.
From Verif Require Import Base BaseLemmas ModelPush ModelPushCov ModelKernels ModelIndex ModelAccum ModelAxes ModelState ModelParams ModelNd ModelWrap ModelMethods
  Spec SpecAxes SpecNd SpecMethods
  ProofPush ProofPushCov Laws ProofKernels ProofSpec ProofReduce ProofIndex ProofLabels ProofAxes ProofArrays ProofMulti ProofNd PropParams PropWrap ProofNdVals.
From Verif Require PropNd.

(* ---- positions ------------------------------------------------------------------- *)

Lemma valid_iff s l : valid s l <-> length l = length s /\ forall k, k < length s -> nth k l 0 < nth k s 0.
Proof.
  split.
  - intros H. split; [now apply valid_length|]. induction H as [|n i s l Hi H IH]; intros k Hk; [cbn in Hk; lia|].
    destruct k as [|k]; cbn; [exact Hi|]. apply IH. cbn in Hk. lia.
  - revert l. induction s as [|n s IH]; intros [|i l] [E H]; try discriminate; constructor.
    + exact (H 0 ltac:(cbn; lia)).
    + apply IH. split; [cbn in E; lia|]. intros k Hk. exact (H (S k) ltac:(cbn; lia)).
Qed.
Lemma stretched_length s l : length s <= length l -> length (stretched s l) = length s.
Proof. intros H. unfold stretched. rewrite map_length, combine_length, skipn_length. lia. Qed.
Lemma stretched_nth s l k : length s <= length l -> k < length s ->
  nth k (stretched s l) 0 = if Nat.eqb (nth k s 0) 1 then 0 else nth (length l - length s + k) l 0.
Proof.
  intros H Hk. unfold stretched. rewrite (nth_map_in _ _ _ _ (0, 0)) by (rewrite combine_length, skipn_length; lia).
  rewrite combine_nth by (rewrite skipn_length; lia). cbn [fst snd]. now rewrite nth_skipn'.
Qed.
Lemma stretched_self s l : valid s l -> stretched s l = l.
Proof.
  intros V. apply valid_iff in V. destruct V as [E H]. apply (nth_ext _ _ 0 0); [rewrite stretched_length; lia|].
  intros k Hk. rewrite stretched_length in Hk by lia. rewrite stretched_nth by lia. rewrite E, Nat.sub_diag. cbn [Nat.add].
  destruct (Nat.eqb_spec (nth k s 0) 1) as [X|]; [|reflexivity]. specialize (H k Hk). lia.
Qed.
Lemma broadcasts_nth ls loop s k : broadcasts ls loop -> In s ls -> k < length s ->
  nth k s 0 = nth (length loop - length s + k) loop 0 \/ nth k s 0 = 1.
Proof.
  intros (H1 & _ & H2) Hs Hk. specialize (H1 s Hs). destruct (H2 (length s - 1 - k) ltac:(lia)) as [H _]. specialize (H s Hs).
  rewrite (from_end_nth s), (from_end_nth loop) in H by lia.
  replace (length s - 1 - (length s - 1 - k)) with k in H by lia.
  replace (length loop - 1 - (length s - 1 - k)) with (length loop - length s + k) in H by lia. exact H.
Qed.
Lemma stretched_valid ls loop s l : broadcasts ls loop -> In s ls -> valid loop l -> valid s (stretched s l).
Proof.
  intros B Hs V. pose proof (valid_length _ _ V) as E. pose proof (proj1 B s Hs) as Le. apply valid_iff. split; [apply stretched_length; lia|].
  intros k Hk. rewrite stretched_nth by lia. destruct (Nat.eqb_spec (nth k s 0) 1) as [X|X]; [lia|].
  destruct (broadcasts_nth _ _ _ _ B Hs Hk) as [Y|Y]; [|lia]. rewrite Y, E. apply valid_iff in V. apply V. lia.
Qed.
Lemma landing_In s loop p l : In l (landing s loop p) <-> valid loop l /\ stretched s l = p.
Proof.
  unfold landing. rewrite filter_In, all_idx_valid. destruct (list_eq_dec _ _ _); intuition congruence.
Qed.

(* ---- operands whose core axes are the last ones ------------------------------------- *)

Lemma place_last k m o c : length o = k -> length c = m -> place (k + m) (seq k m) o c = o ++ c.
Proof.
  intros Lo Lc. unfold place. apply (nth_ext _ _ 0 0); [rewrite map_length, seq_length, app_length; lia|].
  intros p Hp. rewrite map_length, seq_length in Hp. rewrite (nth_map_in _ _ _ _ 0) by (now rewrite seq_length). rewrite seq_nth by exact Hp.
  cbn [Nat.add]. rewrite nat_mem_dec. destruct (in_dec Nat.eq_dec p (seq k m)) as [I|I].
  - apply in_seq in I. rewrite index_of_seq by lia. rewrite app_nth2 by lia. f_equal. lia.
  - assert (Hk : p < k) by (destruct (Nat.lt_ge_cases p k); [assumption|elim I; apply in_seq; lia]).
    rewrite app_nth1 by lia. f_equal.
    assert (E : filter (fun q => negb (nat_mem q (seq k m))) (seq 0 p) = seq 0 p).
    { apply filter_all, Forall_forall. intros q Hq. apply in_seq in Hq. rewrite nat_mem_dec. destruct (in_dec Nat.eq_dec q (seq k m)) as [J|]; [|reflexivity].
      apply in_seq in J. lia. }
    now rewrite E, seq_length.
Qed.
Lemma read_front p m : map (fun k => nth k (p ++ m) 0) (seq 0 (length p)) = p.
Proof.
  apply (nth_ext _ _ 0 0); [now rewrite map_length, seq_length|]. intros k Hk. rewrite map_length, seq_length in Hk.
  rewrite (nth_map_in _ _ _ _ 0) by (now rewrite seq_length). rewrite seq_nth by exact Hk. now apply app_nth1.
Qed.
Lemma read_back p m : map (fun k => nth k (p ++ m) 0) (seq (length p) (length m)) = m.
Proof.
  apply (nth_ext _ _ 0 0); [now rewrite map_length, seq_length|]. intros k Hk. rewrite map_length, seq_length in Hk.
  rewrite (nth_map_in _ _ _ _ 0) by (now rewrite seq_length). rewrite seq_nth by exact Hk. rewrite app_nth2 by lia. f_equal. lia.
Qed.
Lemma outer_last k m : outer_axes (k + m) (seq k m) = seq 0 k.
Proof.
  unfold outer_axes. rewrite except_filter. pose proof (seq_split_last (k + m) m ltac:(lia)) as X.
  replace (k + m - m) with k in X by lia. exact X.
Qed.
(* operand with loop axes of lengths sd and core axes of lengths cs; entry c of the
   core at position p is g p c *)
Definition op_reads (a : garg) (sd cs : list nat) (g : list nat -> list nat -> Qc) : Prop :=
  exists C, core_axes a = Ok (fst a, C) /\ loop_shape (fst a, C) = sd /\ core_shape (fst a, C) = cs /\
    forall l c, valid sd (stretched sd l) -> valid cs c -> core_elem (fst a, C) l c = g (stretched sd l) c.
Lemma reads_last t axes sd cs : tshape t = sd ++ cs -> Forall2 (is_axis (tndim t)) axes (seq (length sd) (length cs)) ->
  core_axes (t, axes) = Ok (t, seq (length sd) (length cs)) /\ op_reads (t, axes) sd cs (fun p c => tget t (p ++ c)).
Proof.
  intros E F. assert (En : tndim t = length sd + length cs) by (unfold tndim; now rewrite E, app_length).
  assert (CA : core_axes (t, axes) = Ok (t, seq (length sd) (length cs))).
  { unfold core_axes. cbn [fst snd]. rewrite (normalize_ints _ _ _ F) by apply seq_NoDup. reflexivity. }
  split; [exact CA|]. exists (seq (length sd) (length cs)). split; [exact CA|]. cbn [fst snd].
  assert (LS : loop_shape (t, seq (length sd) (length cs)) = sd).
  { unfold loop_shape. cbn [fst snd]. rewrite En, outer_last, E. apply (nth_ext _ _ 0 0); [now rewrite map_length, seq_length|].
    intros k Hk. rewrite map_length, seq_length in Hk. rewrite (nth_map_in _ _ _ _ 0) by (now rewrite seq_length). rewrite seq_nth by exact Hk. now rewrite app_nth1. }
  split; [exact LS|]. split.
  { unfold core_shape. cbn [fst snd]. rewrite E. apply (nth_ext _ _ 0 0); [now rewrite map_length, seq_length|].
    intros k Hk. rewrite map_length, seq_length in Hk. rewrite (nth_map_in _ _ _ _ 0) by (now rewrite seq_length). rewrite seq_nth by exact Hk.
    rewrite app_nth2 by lia. f_equal. lia. }
  intros l c Hl Vc. unfold core_elem. rewrite LS. cbn [fst snd]. f_equal. rewrite En. apply place_last; now apply valid_length.
Qed.
Lemma reads_last_core t sd cs : tshape t = sd ++ cs -> op_reads (fst (last_core t cs)) sd cs (fun p c => tget t (p ++ c)).
Proof.
  intros E. unfold last_core. cbn [fst]. apply (reads_last t (axes_last (length cs)) sd cs E). apply axes_last_positions.
  - unfold tndim. rewrite E, app_length. lia.
  - f_equal. unfold tndim. rewrite E, app_length. lia.
Qed.

(* ---- cells ------------------------------------------------------------------------------ *)

Lemma foldR_keyed {B X} (d : B) (e : err) (f : X -> B -> option B) (key : X -> nat) ls : forall cells,
  (forall l, In l ls -> key l < length cells) ->
  match foldR (fun cells l => let k := key l in rbind (of_opt e (f l (nth k cells d))) (fun b => Ok (upd cells k b))) ls cells with
  | Ok out => length out = length cells /\
      forall k, k < length cells -> foldM (fun b l => f l b) (filter (fun l => Nat.eqb (key l) k) ls) (nth k cells d) = Some (nth k out d)
  | Raise e' => e' = e /\ exists k, k < length cells /\ foldM (fun b l => f l b) (filter (fun l => Nat.eqb (key l) k) ls) (nth k cells d) = None
  end.
Proof.
  cbn zeta. induction ls as [|l ls IH]; intros cells H; cbn [foldR filter]; [split; [reflexivity|]; intros; reflexivity|].
  assert (Hl : key l < length cells) by (apply H; now left).
  destruct (f l (nth (key l) cells d)) as [b|] eqn:E; cbn [of_opt rbind].
  - specialize (IH (upd cells (key l) b)). rewrite upd_length in IH. specialize (IH (fun l' Hl' => H l' (or_intror Hl'))).
    assert (G : forall k, k < length cells ->
      foldM (fun b l => f l b) (if Nat.eqb (key l) k then l :: filter (fun l => Nat.eqb (key l) k) ls else filter (fun l => Nat.eqb (key l) k) ls) (nth k cells d)
      = foldM (fun b l => f l b) (filter (fun l => Nat.eqb (key l) k) ls) (nth k (upd cells (key l) b) d)).
    { intros k Hk. rewrite upd_nth. rewrite (proj2 (Nat.ltb_lt _ _) Hl). destruct (Nat.eqb_spec (key l) k) as [<-|]; [|reflexivity].
      cbn [foldM]. rewrite E. reflexivity. }
    destruct (foldR _ ls _) as [out|e'].
    + destruct IH as [IH1 IH2]. split; [exact IH1|]. intros k Hk. rewrite G by exact Hk. now apply IH2.
    + destruct IH as [IH1 (k & Hk & IH2)]. split; [exact IH1|]. exists k. split; [exact Hk|]. now rewrite G.
  - split; [reflexivity|]. exists (key l). split; [exact Hl|]. rewrite Nat.eqb_refl. cbn [foldM]. now rewrite E.
Qed.

Section Cells.
  Context {A V : Type} (K : pusher A V) (ok : A -> Prop) (P : packer A).
  Hypothesis MA : moment_array K ok P.

  Definition op_ok (op : push_op (A := A) (V := V)) : Prop :=
    match op with PushVal _ _ | PushVals _ => True | PushData d | PushDataScale d _ => ok d | PushDatas ds => Forall ok ds end.
  Lemma data_into_ok ds o a : Forall ok ds -> ok o -> reduce_data_into K ds o = Some a -> ok a.
  Proof.
    destruct (kernel_laws K ok (ma_kernel _ _ _ MA)) as (I & L & W). unfold reduce_data_into. intros F. revert o.
    induction F as [|d ds Hd F IH]; intros o Ho E; cbn [foldM] in E; [congruence|].
    destruct (p_push_data K d o) as [b|] eqn:X; cbn [obind] in E; [|discriminate]. apply (IH b); [|exact E].
    destruct (Qc_eq_dec (p_wt K d) 0) as [Z|Z]; [rewrite (l_push_zero _ _ L _ _ Z) in X; congruence|].
    destruct (Qc_eq_dec (p_wt K o + p_wt K d) 0) as [Y|Y].
    - rewrite (l_push_none _ _ L) in X by (assumption || now apply W). discriminate.
    - destruct (l_push_some _ _ L d o) as (r & E1 & E2 & _); try assumption; try (now apply W). rewrite X in E1. injection E1 as ->. now apply W.
  Qed.
  Lemma run_op_ok o op a : op_ok op -> ok o -> run_op K o op = Some a -> ok a.
  Proof.
    destruct (kernel_laws K ok (ma_kernel _ _ _ MA)) as (I & L & W). intros H Ho E.
    rewrite (run_op_rows L) in E; [|destruct op; cbn in *; auto; now apply W].
    eapply data_into_ok; [|exact Ho|exact E]. destruct op as [x w|xw|d|d s|ds]; cbn [op_rows op_ok] in *.
    - constructor; [apply W, (l_point_wf _ _ L)|constructor].
    - apply Forall_forall. intros d Hd. apply in_map_iff in Hd. destruct Hd as (p & <- & _). apply W, (l_point_wf _ _ L).
    - now constructor.
    - constructor; [|constructor]. apply W. apply (scaled_wf L). now apply W.
    - exact H.
  Qed.
  Lemma run_ops_ok ops : Forall op_ok ops -> forall o a, ok o -> run_ops K ops o = Some a -> ok a.
  Proof.
    unfold run_ops. induction 1 as [|op ops H F IH]; intros o a Ho E; cbn [foldM] in E; [congruence|].
    destruct (run_op K o op) as [b|] eqn:X; cbn [obind] in E; [|discriminate]. apply (IH b); [now apply (run_op_ok o op)|exact E].
  Qed.
  Lemma mom_cell_ok t p : ok (mom_cell P t p).
  Proof. apply (ma_pack_ok _ _ _ MA). Qed.

  Context (stretch : bool).
  (* the loop runs the operations that fall on a position, in order *)
  Lemma update_cells args ins obj s loop f (at_ : list nat -> push_op) :
    mapR (fun a => core_axes (fst a)) args = Ok ins ->
    map (core_shape) ins = map snd args ->
    tensor_ok obj -> tshape obj = s ++ pk_shape P ->
    broadcasts (map loop_shape ins ++ [s]) loop -> (stretch = true \/ loop = s) ->
    (forall l, valid loop l -> op_ok (at_ l)) ->
    (forall l cur, valid loop l -> f cur (map (fun a => core_elem a l) ins) = of_opt EZeroDiv (run_op K cur (at_ l))) ->
    match gufunc_update K P stretch args obj (axes_last (mom_ndim P)) f with
    | Ok out => tensor_ok out /\ tshape out = s ++ pk_shape P /\
        forall p, valid s p -> run_ops K (map at_ (landing s loop p)) (mom_cell P obj p) = Some (mom_cell P out p)
    | Raise e => e = EZeroDiv /\ exists p, valid s p /\ run_ops K (map at_ (landing s loop p)) (mom_cell P obj p) = None
    end.
  Proof.
    intros E1 E2 To Es B HS Hok Hf. unfold gufunc_update. rewrite E1. cbn [rbind].
    destruct (reads_last obj (axes_last (mom_ndim P)) s (pk_shape P) Es) as [CA RD].
    { apply axes_last_positions; [unfold tndim, mom_ndim; rewrite Es, app_length; lia|]. f_equal. unfold tndim, mom_ndim. rewrite Es, app_length. lia. }
    rewrite CA. cbn [rbind]. destruct RD as (C & CA' & LS & CS & CE). rewrite CA in CA'. injection CA' as <-. cbn [fst] in LS, CS, CE.
    set (o := (obj, seq (length s) (length (pk_shape P)))) in *.
    assert (CK : forallb (fun p => nats_eqb (core_shape (fst p)) (snd p)) (combine (ins ++ [o]) (map snd args ++ [pk_shape P])) = true).
    { rewrite <- E2. clear - CS. induction ins as [|i ins IH]; cbn [map app combine forallb fst snd]; [now rewrite CS, nats_eqb_refl|].
      now rewrite nats_eqb_refl, IH. }
    rewrite CK. cbn [negb]. rewrite map_app. cbn [map]. rewrite LS. rewrite (proj2 (broadcast_shapes_ok _ _) B). cbn [rbind].
    assert (ST : (stretch || nats_eqb loop s)%bool = true) by (destruct HS as [-> | ->]; [reflexivity|]; rewrite nats_eqb_refl; apply orb_true_r).
    rewrite ST. cbn [negb].
    set (cells := map (fun l => pk_pack P (core_elem o l)) (all_idx s)).
    assert (Lc : length cells = size s) by (unfold cells; now rewrite map_length, all_idx_length).
    assert (Ic : In s (map loop_shape ins ++ [s])) by (apply in_or_app; right; now left).
    assert (Hc : forall p, valid s p -> nth (ravel s p) cells (p_zero K) = mom_cell P obj p).
    { intros p Vp. unfold cells. rewrite (nth_map_in _ _ _ _ []) by (rewrite all_idx_length; now apply ravel_lt). rewrite nth_all_idx by exact Vp.
      apply (proj1 (ma_packer _ _ _ MA)). intros m Vm. rewrite CE; [|now rewrite stretched_self|exact Vm]. now rewrite stretched_self. }
    pose proof (foldR_keyed (p_zero K) EZeroDiv (fun l b => run_op K b (at_ l)) (fun l => ravel s (stretched s l)) (all_idx loop) cells) as FK.
    assert (Hk : forall l, In l (all_idx loop) -> ravel s (stretched s l) < length cells).
    { intros l Hl. apply all_idx_valid in Hl. rewrite Lc. apply ravel_lt. eapply stretched_valid; eauto. }
    specialize (FK Hk). cbn zeta in FK.
    assert (EF : foldR (fun cells l => let k := ravel s (loop_index s l) in
                   rbind (f (nth k cells (p_zero K)) (map (fun a => core_elem a l) ins)) (fun b => Ok (upd cells k b))) (all_idx loop) cells
               = foldR (fun cells l => rbind (of_opt EZeroDiv (run_op K (nth (ravel s (stretched s l)) cells (p_zero K)) (at_ l)))
                   (fun b => Ok (upd cells (ravel s (stretched s l)) b))) (all_idx loop) cells).
    { cbn zeta. assert (G : forall ls, (forall l, In l ls -> valid loop l) -> forall cs,
        foldR (fun cells l => rbind (f (nth (ravel s (loop_index s l)) cells (p_zero K)) (map (fun a => core_elem a l) ins)) (fun b => Ok (upd cells (ravel s (loop_index s l)) b))) ls cs
        = foldR (fun cells l => rbind (of_opt EZeroDiv (run_op K (nth (ravel s (stretched s l)) cells (p_zero K)) (at_ l)))
                   (fun b => Ok (upd cells (ravel s (stretched s l)) b))) ls cs).
      { induction ls as [|l ls IH]; intros Hl cs; [reflexivity|]. cbn [foldR]. rewrite Hf by (apply Hl; now left).
        change (loop_index s l) with (stretched s l). destruct (of_opt _ _); cbn [rbind]; [|reflexivity]. apply IH. intros l' H'. apply Hl. now right. }
      apply G. intros l Hl. now apply all_idx_valid. }
    cbn zeta in EF |- *. rewrite EF. clear EF.
    assert (FL : forall p, valid s p -> filter (fun l => Nat.eqb (ravel s (stretched s l)) (ravel s p)) (all_idx loop) = landing s loop p).
    { intros p Vp. unfold landing. apply filter_ext_in. intros l Hl. apply all_idx_valid in Hl.
      assert (Vl : valid s (stretched s l)) by (eapply stretched_valid; eauto).
      destruct (list_eq_dec Nat.eq_dec (stretched s l) p) as [->|Ne]; [apply Nat.eqb_refl|].
      destruct (Nat.eqb_spec (ravel s (stretched s l)) (ravel s p)) as [E|]; [|reflexivity]. elim Ne. now apply (ravel_inj s). }
    assert (RO : forall ls a, foldM (fun b l => run_op K b (at_ l)) ls a = run_ops K (map at_ ls) a).
    { unfold run_ops. induction ls as [|l ls IH]; intros a; [reflexivity|]. cbn [map foldM]. destruct (run_op K a (at_ l)); cbn [obind]; auto. }
    destruct (foldR _ (all_idx loop) cells) as [out|e]; cbn [rbind].
    - destruct FK as [L1 FK]. split; [apply tabulate_ok|]. split; [exact Es|]. intros p Vp.
      pose proof (ravel_lt _ _ Vp) as R1. specialize (FK (ravel s p) ltac:(lia)). rewrite FL, RO, Hc in FK by exact Vp. rewrite FK. f_equal.
      assert (Oa : ok (nth (ravel s p) out (p_zero K))).
      { eapply run_ops_ok; [|apply (mom_cell_ok obj p)|exact FK]. apply Forall_forall. intros op Hop. apply in_map_iff in Hop.
        destruct Hop as (l & <- & Hl). apply landing_In in Hl. apply Hok. apply Hl. }
      rewrite <- (ma_pack_unpack _ _ _ MA _ Oa) at 1. apply (proj1 (ma_packer _ _ _ MA)). intros m Vm.
      assert (Vpm : valid (tshape obj) (p ++ m)) by (rewrite Es; now apply Forall2_app).
      rewrite tget_tabulate by exact Vpm. unfold o. cbn [snd]. pose proof (valid_length _ _ Vp) as Lp. pose proof (valid_length _ _ Vm) as Lm.
      unfold tndim. rewrite Es, app_length, outer_last.
      now rewrite <- Lp, <- Lm, read_front, read_back.
    - destruct FK as [Ee (k & Hk1 & FK)]. split; [exact Ee|]. rewrite Lc in Hk1. exists (nth k (all_idx s) []).
      assert (Vp : valid s (nth k (all_idx s) [])) by (apply all_idx_valid, nth_In; now rewrite all_idx_length).
      split; [exact Vp|]. rewrite <- FL by exact Vp. rewrite all_idx_nth_ravel by exact Hk1. rewrite <- RO, <- Hc by exact Vp.
      now rewrite all_idx_nth_ravel.
  Qed.
End Cells.

Lemma app_inj_len {T} (a b c d : list T) : a ++ b = c ++ d -> length a = length c -> a = c /\ b = d.
Proof.
  revert c. induction a as [|x a IH]; intros [|y c] E L; try discriminate; [now split|]. cbn in E. injection E as -> E.
  destruct (IH c E ltac:(cbn in L; lia)) as [-> ->]. now split.
Qed.

(* ---- lists of operands -------------------------------------------------------------------- *)

(* argument with the lengths of its core axes; lengths of the loop axes, entries *)
Notation operand_of := ((garg * list nat) * (list nat * (list nat -> list nat -> Qc)))%type.
Lemma reads_list (ops : list operand_of) :
  Forall (fun o => op_reads (fst (fst o)) (fst (snd o)) (snd (fst o)) (snd (snd o))) ops ->
  exists ins, mapR (fun a => core_axes (fst a)) (map fst ops) = Ok ins /\ map core_shape ins = map snd (map fst ops) /\
    map loop_shape ins = map (fun o => fst (snd o)) ops /\
    forall l, Forall (fun o : operand_of => valid (fst (snd o)) (stretched (fst (snd o)) l)) ops ->
      Forall2 (fun e (o : operand_of) => forall c, valid (snd (fst o)) c -> e c = snd (snd o) (stretched (fst (snd o)) l) c)
        (map (fun a => core_elem a l) ins) ops.
Proof.
  induction 1 as [|o ops (C & H1 & H2 & H3 & H4) F (ins & I1 & I2 & I3 & I4)].
  - exists []. repeat split. intros l _. constructor.
  - exists ((fst (fst (fst o)), C) :: ins). cbn [map mapR]. rewrite H1. cbn [rbind]. rewrite I1. cbn [rbind]. split; [reflexivity|].
    rewrite H2, H3, I2, I3. repeat split. intros l Hl. inversion Hl; subst. cbn [map]. constructor; [|auto]. intros c Vc. now apply H4.
Qed.
Definition op_last (t : tensor) (sd cs : list nat) : operand_of := (last_core t cs, (sd, fun p c => tget t (p ++ c))).
Lemma op_last_reads t sd cs : tshape t = sd ++ cs -> op_reads (fst (fst (op_last t sd cs))) (fst (snd (op_last t sd cs))) (snd (fst (op_last t sd cs))) (snd (snd (op_last t sd cs))).
Proof. apply reads_last_core. Qed.

(* one array of values *)
Definition op_value (r : nat) (nsamp : nat) (t u : tensor) : operand_of :=
  (last_core u [nsamp], (value_loop r t, fun p c =>
     match tndim t with
     | 0 => tget t []
     | 1 => tget t [hd 0 c]
     | _ => tget t (firstn (length p - r) p ++ hd 0 c :: skipn (length p - r) p)
     end)).
Definition value_fits (r nsamp : nat) (t : tensor) : Prop :=
  tensor_ok t /\ (tndim t = 0 \/ tndim t = 1 /\ dim_from_end t 0 = nsamp \/ 2 <= tndim t /\ r < tndim t /\ dim_from_end t r = nsamp).
Lemma less_axis_map (f : nat -> nat) a r : 
  less_axis r (map f (seq 0 (a + r + 1))) = map f (seq 0 a ++ seq (S a) r).
Proof.
  unfold less_axis. rewrite map_length, seq_length. replace (a + r + 1 - 1 - r) with a by lia. replace (a + r + 1 - r) with (S a) by lia.
  replace (a + r + 1) with (a + S r) by lia. rewrite seq_app, !map_app. cbn [Nat.add seq map].
  rewrite firstn_app, skipn_app, map_length, seq_length, Nat.sub_diag. cbn [firstn]. rewrite app_nil_r, firstn_all2 by (rewrite map_length, seq_length; lia).
  f_equal. rewrite skipn_all2 by (rewrite map_length, seq_length; lia). replace (S a - a) with 1 by lia. reflexivity.
Qed.
Lemma except_middle a r : except_nat (seq 0 (a + r + 1)) [a] = seq 0 a ++ seq (S a) r.
Proof.
  replace (a + r + 1) with (a + S r) by lia. rewrite seq_app. cbn [Nat.add seq]. rewrite except_app. f_equal.
  - apply except_none. intros x Hx [<-|[]]. apply in_seq in Hx. lia.
  - unfold except. cbn [filter]. destruct (in_dec Nat.eq_dec a [a]) as [_|C]; [|exfalso; apply C; now left].
    apply except_none. intros x Hx [<-|[]]. apply in_seq in Hx. lia.
Qed.
Lemma val_self t a env : 2 <= tndim t -> val (tndim t) a t env = tget t (map env (seq 0 (tndim t))).
Proof. intros H. unfold val. destruct (tndim t) as [|[|k]]; [lia|lia|]. now rewrite Nat.sub_diag. Qed.
Lemma moved_reads r nsamp t u : value_fits r nsamp t -> 2 <= tndim t ->
  view u (except_nat (seq 0 (tndim t)) [tndim t - 1 - r] ++ [tndim t - 1 - r]) (len (tndim t) (tndim t - 1 - r) t nsamp) (val (tndim t) (tndim t - 1 - r) t) ->
  op_reads (fst (last_core u [nsamp])) (value_loop r t) [nsamp] (snd (snd (op_value r nsamp t u))).
Proof.
  intros [Ht [X|[[X _]|(_ & Hr & Hn)]]] H2 V; [lia|lia|]. set (n := tndim t) in *. set (a := n - 1 - r) in *.
  assert (En : n = a + r + 1) by (unfold a; lia).
  assert (VL : value_loop r t = map (shape_of t) (seq 0 a ++ seq (S a) r)).
  { unfold value_loop. fold n. destruct (Nat.leb_spec n 1); [lia|]. rewrite <- less_axis_map, <- En. f_equal.
    unfold shape_of. symmetry. now apply map_nth_seq. }
  assert (Hlen : forall j, j < n -> j <> a -> len n a t nsamp j = shape_of t j).
  { intros j Hj Nj. unfold len. destruct (Nat.eqb_spec j a); [tauto|]. rewrite from_end_nth by (change (length (tshape t)) with n; lia).
    unfold shape_of. change (length (tshape t)) with n. f_equal. lia. }
  destruct V as (Hu & Us & Uv). rewrite En, except_middle, <- En in Us, Uv.
  assert (Es : tshape u = value_loop r t ++ [nsamp]).
  { rewrite Us, map_app, VL. f_equal.
    - apply map_ext_in. intros j Hj. apply in_app_or in Hj. apply Hlen; destruct Hj as [Hj|Hj]; apply in_seq in Hj; lia.
    - cbn. unfold len. now rewrite Nat.eqb_refl. }
  destruct (reads_last_core u _ _ Es) as (C & C1 & C2 & C3 & C4). exists C. split; [exact C1|]. split; [exact C2|]. split; [exact C3|].
  intros l c Vp Vc. rewrite C4 by assumption. set (p := stretched (value_loop r t) l) in *. cbn [snd op_value].
  destruct (proj1 (valid_iff _ _) Vc) as [Lc Hc]. destruct c as [|i [|? ?]]; try discriminate. specialize (Hc 0 ltac:(cbn; lia)). cbn in Hc. cbn [hd].
  set (E := seq 0 a ++ seq (S a) r) in *.
  assert (ND : NoDup (E ++ [a])).
  { unfold E. apply NoDup_app_; [|repeat constructor; intros []|].
    - rewrite <- except_middle. apply NoDup_except, seq_NoDup.
    - intros x Hx [<-|[]]. apply in_app_or in Hx. destruct Hx as [Hx|Hx]; apply in_seq in Hx; lia. }
  assert (LE : length E = a + r) by (unfold E; rewrite app_length, !seq_length; lia).
  pose proof (valid_length _ _ Vp) as Lp. rewrite VL, map_length in Lp.
  set (env := bind (E ++ [a]) (p ++ [i]) (fun _ => 0)).
  assert (Em : map env (E ++ [a]) = p ++ [i]) by (apply map_bind; [exact ND|rewrite !app_length; cbn; lia]).
  assert (Em' := Em). rewrite map_app in Em'. apply app_inj_len in Em'; [|rewrite map_length; lia]. destruct Em' as [Ep Ei]. cbn in Ei. injection Ei as Ei.
  rewrite <- Em. rewrite Uv.
  - unfold n. rewrite val_self by exact H2. fold n. destruct n as [|[|n']] eqn:Nn; [lia|lia|]. rewrite <- Nn in *. f_equal. rewrite En at 1.
    replace (a + r + 1) with (a + S r) by lia. rewrite seq_app, map_app. cbn [Nat.add seq map]. rewrite Ei.
    unfold E in Ep. rewrite map_app in Ep. rewrite <- Ep at 2 4. rewrite Lp. unfold E. rewrite app_length, !seq_length. replace (a + r - r) with a by lia.
    rewrite firstn_app, skipn_app, map_length, seq_length, Nat.sub_diag. cbn [firstn skipn].
    now rewrite firstn_all2, skipn_all2, app_nil_r by (rewrite map_length, seq_length; lia).
  - intros j Hj. apply in_app_or in Hj. destruct Hj as [Hj|[<-|[]]].
    + assert (Hj' : j < n /\ j <> a) by (unfold E in Hj; apply in_app_or in Hj; destruct Hj as [Hj|Hj]; apply in_seq in Hj; lia).
      rewrite Hlen by tauto. rewrite VL in Vp. rewrite <- Ep in Vp.
      assert (G : forall ls, valid (map (shape_of t) ls) (map env ls) -> In j ls -> env j < shape_of t j).
      { clear. induction ls as [|b ls IH]; intros W I; [destruct I|]. inversion W; subst. destruct I as [<-|I]; auto. }
      now apply (G E).
    + unfold len. now rewrite Nat.eqb_refl, Ei.
Qed.
Lemma value_prepared r nsamp t : value_fits r nsamp t ->
  exists u, prepare_secondary (-1 - Z.of_nat r) nsamp true t = Ok u /\
    op_reads (fst (last_core u [nsamp])) (value_loop r t) [nsamp] (snd (snd (op_value r nsamp t u))).
Proof.
  intros F. destruct F as [Ht [E|[[E En]|(E & Hr & En)]]].
  - unfold prepare_secondary. rewrite E. cbn [Nat.eqb]. eexists. split; [reflexivity|].
    destruct (PropNd.tensor_full nsamp (tget t [])) as (G1 & G2 & G3). unfold value_loop. rewrite E. cbn [Nat.leb].
    destruct (reads_last_core (ModelNd.full nsamp (tget t [])) [] [nsamp] G2) as (C & C1 & C2 & C3 & C4). exists C. repeat (split; [assumption|]).
    intros l c Vp Vc. rewrite C4 by assumption. cbn [stretched combine map app]. cbn [op_value snd]. rewrite E.
    inversion Vc as [|? i ? c' Hi Vc']; subst. inversion Vc'; subst. now apply G3.
  - assert (Es : tshape t = [nsamp]).
    { unfold tndim in E. unfold dim_from_end, from_end in En. destruct (tshape t) as [|n [|? ?]]; try discriminate. cbn in En. congruence. }
    unfold prepare_secondary. rewrite E. cbn [Nat.eqb rbind fst snd]. exists t. split.
    + unfold shape_at. rewrite Es. change (zread [nsamp] (-1)) with (Ok nsamp). cbn [rbind]. now rewrite Nat.eqb_refl.
    + unfold value_loop. rewrite E. cbn [Nat.leb].
      destruct (reads_last_core t [] [nsamp] Es) as (C & C1 & C2 & C3 & C4). exists C. repeat (split; [assumption|]).
      intros l c Vp Vc. rewrite C4 by assumption. cbn [stretched combine map app]. cbn [op_value snd]. rewrite E.
      inversion Vc as [|? i ? c' Hi Vc']; subst. inversion Vc'; subst. reflexivity.
  - set (n := tndim t) in *. assert (Ha : (n - 1 - r) + r + 1 = n) by lia.
    assert (F : fits n (tshape t) r nsamp t).
    { constructor; [exact Ht|fold n; lia|right; right; fold n; auto|]. intros _ k _ _. now left. }
    destruct (secondary_view n (tshape t) (n - 1 - r) r nsamp true eq_refl Ha t F) as (u & Eu & Vu). exists u. split; [exact Eu|].
    apply moved_reads; [split; [exact Ht|right; right; fold n; auto]|fold n; lia|].
    fold n. unfold own in Vu. fold n in Vu. destruct (Nat.leb_spec n 1); [lia|]. rewrite Nat.sub_diag in Vu. exact Vu.
Qed.
Lemma first_fits axis r x others : samples_agree x others axis r -> value_fits r (dim_from_end x r) x.
Proof.
  intros (Hx & (a & Ha & E) & _). split; [exact Hx|]. destruct (Nat.eq_dec (tndim x) 1) as [E1|E1].
  - right. left. split; [exact E1|]. f_equal. lia.
  - right. right. repeat split; lia.
Qed.
Lemma prepare_values_reads axis r x others : samples_agree x others axis r ->
  exists ux us, prepare_values (S (length others)) axis true x others = Ok ((-1)%Z, (ux, us)) /\ dim_at ux (-1) = dim_from_end x r /\
    length us = length others /\
    Forall (fun o : operand_of => op_reads (fst (fst o)) (fst (snd o)) (snd (fst o)) (snd (snd o)))
      (map (fun p => op_value r (dim_from_end x r) (fst p) (snd p)) (combine (x :: others) (ux :: us))).
Proof.
  intros HA. pose proof (first_fits _ _ _ _ HA) as Fx. destruct HA as (Hx & (a & Ha & E) & HO). set (n := dim_from_end x r) in *.
  unfold prepare_values. rewrite Nat.eqb_refl. cbn [negb].
  assert (EN : normalize_axis_index axis (tndim x) None = Ok a) by (apply normalize_index_ok; exact Ha).
  rewrite EN. cbn [rbind]. cbv zeta.
  assert (EZ : positive_to_negative_index (Z.of_nat a) (Z.of_nat (tndim x)) = (-1 - Z.of_nat r)%Z).
  { unfold positive_to_negative_index. destruct (Z.ltb_spec (Z.of_nat a) 0); lia. }
  rewrite EZ.
  assert (EP : nth a (tshape x) 0 = n).
  { unfold n, dim_from_end. rewrite from_end_nth by (change (length (tshape x)) with (tndim x); lia). f_equal. change (length (tshape x)) with (tndim x). lia. }
  rewrite EP. cbn [andb].
  assert (GX : exists ux, (if negb (-1 - Z.of_nat r =? -1)%Z then np_moveaxis [(-1 - Z.of_nat r)%Z] [(-1)%Z] x else Ok x) = Ok ux /\
     op_reads (fst (last_core ux [n])) (value_loop r x) [n] (snd (snd (op_value r n x ux)))).
  { destruct (Nat.eq_dec (tndim x) 1) as [E1|E1].
    - assert (r = 0) by lia. subst r. exists x. split; [reflexivity|].
      assert (Es : tshape x = [n]).
      { unfold n, dim_from_end, from_end. unfold tndim in E1. destruct (tshape x) as [|k [|? ?]]; try discriminate. reflexivity. }
      unfold value_loop. rewrite E1. cbn [Nat.leb].
      destruct (reads_last_core x [] [n] Es) as (C & C1 & C2 & C3 & C4). exists C. repeat (split; [assumption|]).
      intros l c Vp Vc. rewrite C4 by assumption. cbn [stretched combine map app]. cbn [op_value snd]. rewrite E1.
      inversion Vc as [|? i ? c' Hi Vc']; subst. inversion Vc'; subst. reflexivity.
    - set (N := tndim x) in *. assert (HaN : (N - 1 - r) + r + 1 = N) by lia.
      assert (F : fits N (tshape x) r n x).
      { constructor; [exact Hx|fold N; lia|right; right; fold N; repeat split; lia|]. intros _ k _ _. now left. }
      destruct (moved_view N (tshape x) (N - 1 - r) r n true eq_refl HaN x F ltac:(fold N; lia)) as (u & Eu & Vu). exists u. split; [exact Eu|].
      apply moved_reads; [exact Fx|fold N; lia|]. fold N. unfold own in Vu. fold N in Vu. destruct (Nat.leb_spec N 1); [lia|].
      rewrite Nat.sub_diag in Vu. exact Vu. }
  destruct GX as (ux & Eu & Ru). rewrite Eu. cbn [rbind].
  assert (GO : forall l, (forall t, In t l -> value_fits r n t) -> exists us, mapR (prepare_secondary (-1 - Z.of_nat r) n true) l = Ok us /\ length us = length l /\
     Forall (fun o : operand_of => op_reads (fst (fst o)) (fst (snd o)) (snd (fst o)) (snd (snd o)))
      (map (fun p => op_value r n (fst p) (snd p)) (combine l us))).
  { induction l as [|t l IH]; intros Hl; [exists []; repeat split; constructor|].
    destruct (value_prepared r n t (Hl t (or_introl eq_refl))) as (u & E1 & R1). destruct IH as (us & E2 & L2 & R2); [intros t' Ht'; apply Hl; now right|].
    exists (u :: us). cbn [mapR]. rewrite E1. cbn [rbind]. rewrite E2. cbn [rbind]. split; [reflexivity|]. split; [cbn; lia|].
    cbn [combine map fst snd]. constructor; [exact R1|exact R2]. }
  destruct (GO others HO) as (us & E2 & L2 & R2). rewrite E2. cbn [rbind]. exists ux, us. split; [reflexivity|].
  split; [|split; [exact L2|]].
  - destruct Ru as (C & C1 & C2 & C3 & _). unfold dim_at. cbn [Z.ltb Z.compare].
    unfold core_axes, last_core in C1. cbn [fst snd] in C1. destruct (normalize_axis_tuple _ _ _ _) as [l|] eqn:EL in C1; [|discriminate].
    cbn [rbind] in C1. injection C1 as <-. apply normalize_tuple_ok in EL. destruct EL as [EL _]. cbn [axes_last map seq length] in EL.
    inversion EL as [|? b ? l' Hb Hl]; subst. inversion Hl; subst. unfold names_axis in Hb. cbn in Hb. destruct Hb as [Hb1 Hb2].
    unfold core_shape in C3. cbn [fst snd map] in C3. unfold last_core in C3. cbn [fst] in C3. injection C3 as <-. f_equal. lia.
  - cbn [combine map fst snd]. constructor; [exact Ru|exact R2].
Qed.
(* the kernel sees the samples at each position *)
Lemma samples_seen {V} (R : reader V) r x w y ux uw uy l (es : list (list nat -> Qc)) : length uy = length y ->
  Forall2 (fun e (o : operand_of) => forall c, valid (snd (fst o)) c -> e c = snd (snd o) (stretched (fst (snd o)) l) c) es
    (map (fun p => op_value r (dim_from_end x r) (fst p) (snd p)) (combine (x :: w :: y) (ux :: uw :: uy))) ->
  core_samples R (dim_from_end x r) es = samples_on R x w y r l.
Proof.
  intros Ly H. cbn [combine map fst snd] in H. set (n := dim_from_end x r) in *.
  inversion H as [|ex ox es1 os1 Hx H1]; subst. inversion H1 as [|ew ow ey oy Hw H2]; subst.
  unfold core_samples, samples_on. fold n. apply map_ext_in. intros i Hi. apply in_seq in Hi.
  assert (Vi : valid [n] [i]) by (constructor; [lia|constructor]).
  assert (SV : forall t u, snd (snd (op_value r n t u)) (stretched (fst (snd (op_value r n t u))) l) [i] = sample_value t r i l).
  { intros t u. cbn [op_value fst snd hd]. unfold sample_value. destruct (tndim t) as [|[|?]]; reflexivity. }
  unfold acc. cbn [nth skipn map]. rewrite (Hx _ Vi), (Hw _ Vi), !SV. do 3 f_equal.
  clear - H2 Vi SV Ly. revert uy ey Ly H2. induction y as [|t y IH]; intros uy ey Ly H2; destruct uy as [|u uy]; try discriminate; cbn [combine map fst snd] in H2.
  - inversion H2. reflexivity.
  - inversion H2 as [|e1 o1 ey' oy' He H3]; subst. cbn [map]. rewrite (He _ Vi), SV. f_equal. apply (IH uy); [cbn in Ly; lia|exact H3].
Qed.
