(* Rolling and exponential rolling kernels. *)
From Verif Require Import Base BaseLemmas ModelKernels Laws ProofKernels.
Local Open Scope Qc_scope.

Lemma firstn_S_snoc {B} (l : list B) i d : (i < length l)%nat -> firstn (S i) l = firstn i l ++ [nth i l d].
Proof.
  revert i. induction l as [|a l IH]; intros [|i] H; cbn in *; try lia; [reflexivity|].
  now rewrite IH by lia.
Qed.
Lemma skipn_cons {B} (l : list B) i d : (i < length l)%nat -> skipn i l = nth i l d :: skipn (S i) l.
Proof.
  revert i. induction l as [|a l IH]; intros [|i] H; cbn in *; try lia; [reflexivity|].
  apply IH. lia.
Qed.
Lemma nth_skipn' {B} (l : list B) i j d : nth j (skipn i l) d = nth (i + j) l d.
Proof. revert l. induction i as [|i IH]; intros [|a l]; cbn; auto. now destruct j. Qed.

(* rows [i - window, i) *)
Definition win {B} (window i : nat) (l : list B) : list B :=
  firstn (Nat.min window i) (skipn (i - window) l).

Lemma win_grow {B} window i (l : list B) d : (i < window)%nat -> (i < length l)%nat ->
  win window (S i) l = win window i l ++ [nth i l d].
Proof.
  intros H1 H2. unfold win. replace (S i - window)%nat with 0%nat by lia.
  replace (i - window)%nat with 0%nat by lia. rewrite !Nat.min_r by lia. cbn [skipn].
  now apply firstn_S_snoc.
Qed.
Lemma win_slide {B} window i (l : list B) d : (window <= i)%nat -> (i < length l)%nat ->
  win window i l ++ [nth i l d] = nth (i - window) l d :: win window (S i) l.
Proof.
  intros H1 H2. unfold win. rewrite !Nat.min_l by lia.
  replace (S i - window)%nat with (S (i - window)) by lia.
  replace (nth i l d) with (nth window (skipn (i - window) l) d).
  2:{ rewrite nth_skipn'. f_equal. lia. }
  rewrite <- firstn_S_snoc by (rewrite skipn_length; lia).
  rewrite (skipn_cons l (i - window) d) by lia. reflexivity.
Qed.
Lemma win_Forall {B} (P : B -> Prop) window i l : Forall P l -> Forall P (win window i l).
Proof.
  intros H. unfold win.
  assert (H1 : Forall P (skipn (i - window) l)).
  { rewrite <- (firstn_skipn (i - window) l) in H. now apply Forall_app in H. }
  rewrite <- (firstn_skipn (Nat.min window i)) in H1. now apply Forall_app in H1.
Qed.

Definition nzcount (ws : list Qc) : nat := length (filter (fun w => negb (qeqb w 0)) ws).
Lemma nzcount_app a b : nzcount (a ++ b) = (nzcount a + nzcount b)%nat.
Proof. unfold nzcount. now rewrite filter_app, app_length. Qed.
Lemma nzcount_cons w t : nzcount (w :: t) = ((if qeqb w 0 then 0 else 1) + nzcount t)%nat.
Proof. unfold nzcount. cbn. now destruct (qeqb w 0). Qed.

Section Roll.
  Context {A V I : Type} {K : pusher A V} (L : laws K I).
  Notation wf := (l_wf L).
  Notation dom := (l_dom L).
  Notation wt := (p_wt K).
  Notation zero := (p_zero K).
  Notation phi := (@phi A V I K L).
  Notation canonical := (@canonical A V I K L).
  Notation Pos := (@Pos A V I K L).
  Notation sumphi := (@sumphi A V I K L).
  Notation sumwt := (@sumwt A V K).
  Notation scale_rows := (@scale_rows A V K).
  Notation scaled := (@scaled A V K).

  (* what row j of a rolling reduction must be *)
  Definition roll_expect (window : nat) (min_count : Z) (data : list A) (j : nat) : option A :=
    if (min_count <=? Z.of_nat (nzcount (map wt (win window (S j) data))))%Z
    then reduce_data K (win window (S j) data) else None.

  Definition roll_inv (window : nat) (min_count : Z) (data : list A) (i : nat) (st : @rstate A) : Prop :=
    let '(dummy, count, rows) := st in
    canonical dummy /\ (forall k, dom k -> phi dummy k = sumphi (win window i data) k) /\
    count = Z.of_nat (nzcount (map wt (win window i data))) /\
    length rows = i /\
    forall j, (j < i)%nat -> nth j rows None = roll_expect window min_count data j.

  Lemma canonical_reduce l d : Forall Pos l -> canonical d ->
    (forall k, dom k -> phi d k = sumphi l k) -> reduce_data K l = Some d.
  Proof. intros. apply (reduce_unique L); auto using (Pos_wf L), (Pos_nv L). Qed.

  Lemma emit_inv window mc data i dummy count rows : Forall Pos data ->
    canonical dummy -> (forall k, dom k -> phi dummy k = sumphi (win window (S i) data) k) ->
    count = Z.of_nat (nzcount (map wt (win window (S i) data))) ->
    length rows = i -> (forall j, (j < i)%nat -> nth j rows None = roll_expect window mc data j) ->
    roll_inv window mc data (S i) (emit mc dummy count rows).
  Proof.
    intros HP C P N Lr R. unfold emit, roll_inv. do 3 (split; [assumption|]).
    split; [rewrite app_length; cbn; lia|]. intros j Hj.
    destruct (Nat.eq_dec j i) as [->|Nj].
    - rewrite app_nth2 by lia. rewrite Lr, Nat.sub_diag. cbn [nth]. unfold roll_expect. rewrite N.
      destruct (_ <=? _)%Z; [|reflexivity]. symmetry. apply canonical_reduce; auto. now apply win_Forall.
    - rewrite app_nth1 by lia. apply R. lia.
  Qed.

  Lemma wt_sum d l : (forall k, dom k -> phi d k = sumphi l k) -> wt d = sumwt l.
  Proof. intros H. rewrite <- (phi_i0 L), H by apply l_i0_dom. apply (sumphi_i0 L). Qed.

  Lemma push_pos d o l : Pos d -> canonical o -> Forall Pos l -> (forall k, dom k -> phi o k = sumphi l k) ->
    exists r, p_push_data K d o = Some r /\ canonical r /\ forall k, dom k -> phi r k = sumphi (l ++ [d]) k.
  Proof.
    intros [Wd Pd] C HP P.
    assert (Po : 0 <= wt o). { rewrite (wt_sum o l P). now apply (Pos_sumwt L). }
    destruct (push_ok L d o Wd (proj1 C)) as (r & E & W & T & Pr & Cr).
    { intros N. apply Qc_lt_neq, Qc_add_pos_r; [exact Po|].
      destruct (Qc_le_lt_eq _ Pd); [contradiction|assumption]. }
    exists r. split; [exact E|]. split; [now apply Cr|]. intros k Hk. rewrite Pr, P by exact Hk.
    unfold ProofKernels.sumphi. rewrite suml_app, suml_cons, suml_nil. ring.
  Qed.

  Lemma sumphi_snoc_wt0 l d k : wt d = 0 -> sumphi (l ++ [d]) k = sumphi l k.
  Proof.
    intros Z. unfold ProofKernels.sumphi. rewrite suml_app, suml_cons, suml_nil, (phi_wt0 L d k Z). ring.
  Qed.

  Lemma grow_step window mc data i st : Forall Pos data -> (i < window)%nat -> (i < length data)%nat ->
    roll_inv window mc data i st ->
    exists st', roll_grow K mc data st i = Some st' /\ roll_inv window mc data (S i) st'.
  Proof.
    intros HP Hi Hl. destruct st as [[dummy count] rows]. intros (C & P & N & Lr & R).
    unfold roll_grow. set (d := nth i data zero).
    assert (Pd : Pos d). { rewrite Forall_forall in HP. apply HP. now apply nth_In. }
    pose proof (win_grow window i data zero Hi Hl) as W. fold d in W.
    destruct (qeqb_spec (wt d) 0) as [Z|Nz].
    - eexists. split; [reflexivity|]. apply emit_inv; auto.
      + intros k Hk. rewrite W, sumphi_snoc_wt0 by exact Z. now apply P.
      + rewrite N, W, map_app, nzcount_app. cbn [map]. rewrite nzcount_cons, Z, qeqb_refl. cbn. lia.
    - destruct (push_pos d dummy (win window i data) Pd C) as (r & E & Cr & Pr); auto using win_Forall.
      rewrite E. cbn [obind]. eexists. split; [reflexivity|]. apply emit_inv; auto.
      + intros k Hk. rewrite W. now apply Pr.
      + rewrite N, W, map_app, nzcount_app. cbn [map]. rewrite nzcount_cons, (qeqb_neq _ _ Nz). cbn. lia.
  Qed.

  Lemma slide_step window mc data i st : Forall Pos data -> (window <= i)%nat -> (i < length data)%nat ->
    roll_inv window mc data i st ->
    exists st', roll_slide K window mc data st i = Some st' /\ roll_inv window mc data (S i) st'.
  Proof.
    intros HP Hi Hl. destruct st as [[dummy count] rows]. intros (C & P & N & Lr & R).
    unfold roll_slide. set (d := nth i data zero). set (o := nth (i - window) data zero).
    assert (Pd : Pos d). { rewrite Forall_forall in HP. apply HP. now apply nth_In. }
    assert (Po : Pos o). { rewrite Forall_forall in HP. apply HP. apply nth_In. lia. }
    pose proof (win_slide window i data zero Hi Hl) as W. fold d in W. fold o in W.
    assert (PW : Forall Pos (win window i data ++ [d])).
    { apply Forall_app. split; [now apply win_Forall|]. now constructor. }
    assert (S1 : exists dm ct, (if qeqb (wt d) 0 then Some (dummy, count)
                 else obind (p_push_data K d dummy) (fun dummy => Some (dummy, (count + 1)%Z))) = Some (dm, ct) /\
        canonical dm /\ (forall k, dom k -> phi dm k = sumphi (win window i data ++ [d]) k) /\
        ct = Z.of_nat (nzcount (map wt (win window i data ++ [d])))).
    { rewrite map_app, nzcount_app. cbn [map]. rewrite nzcount_cons.
      destruct (qeqb_spec (wt d) 0) as [Z|Nz].
      - exists dummy, count. split; [reflexivity|]. split; [exact C|]. split.
        + intros k Hk. rewrite sumphi_snoc_wt0 by exact Z. now apply P.
        + rewrite N. cbn. lia.
      - destruct (push_pos d dummy (win window i data) Pd C) as (r & E & Cr & Pr); auto using win_Forall.
        rewrite E. cbn [obind]. exists r, (count + 1)%Z. split; [reflexivity|]. split; [exact Cr|]. split; [exact Pr|].
        rewrite N. cbn. lia. }
    destruct S1 as (dm & ct & E1 & C1 & P1 & N1). rewrite E1. cbn [obind].
    rewrite W in P1, N1, PW. cbn [map] in N1. rewrite nzcount_cons in N1.
    assert (PW' : Forall Pos (win window (S i) data)) by now apply win_Forall.
    assert (P1' : forall k, dom k -> phi dm k = phi o k + sumphi (win window (S i) data) k).
    { intros k Hk. rewrite P1 by exact Hk. unfold ProofKernels.sumphi. now rewrite suml_cons. }
    destruct (qeqb_spec (wt o) 0) as [Z|Nz].
    - cbn [obind]. eexists. split; [reflexivity|]. apply emit_inv; auto.
      intros k Hk. rewrite P1', (phi_wt0 L o k Z) by exact Hk. ring.
    - assert (Wd : wt dm = wt o + sumwt (win window (S i) data)).
      { rewrite (wt_sum dm _ P1). unfold ProofKernels.sumwt. now rewrite suml_cons. }
      assert (S0 : 0 <= sumwt (win window (S i) data)) by now apply (Pos_sumwt L).
      destruct (qltb_spec (wt o) (wt dm)) as [Hlt|Hge].
      + destruct (push_remove L o dm (proj1 Po) (proj1 C1)) as (r & E & Wr & Tr & Pr & Cr).
        { intros _ Eq. rewrite Eq in Hlt. now apply (Qclt_not_eq _ _ Hlt). }
        rewrite E. cbn [obind]. eexists. split; [reflexivity|]. apply emit_inv; auto.
        * intros k Hk. rewrite Pr, P1' by exact Hk. ring.
        * rewrite N1. lia.
      + assert (Z0 : sumwt (win window (S i) data) = 0).
        { destruct (Qc_le_lt_eq _ S0) as [Z0|Z0]; [exact Z0|]. exfalso. apply Hge. rewrite Wd.
          apply Qc_sub_pos_inv. replace (_ - _) with (sumwt (win window (S i) data)) by ring. exact Z0. }
        cbn [obind]. eexists. split; [reflexivity|]. apply emit_inv; auto using (canonical_zero L).
        * intros k Hk. rewrite (phi_zero L). symmetry.
          pose proof (Pos_sumwt0 L _ PW' Z0) as F0. unfold ProofKernels.sumphi.
          rewrite (suml_ext _ (fun _ => 0)); [apply suml_0|].
          intros x Hx. apply (phi_wt0 L). rewrite Forall_forall in F0. now apply F0.
        * rewrite N1. lia.
  Qed.

  Lemma roll_inv0 window mc data : roll_inv window mc data 0 (zero, 0%Z, []).
  Proof.
    unfold roll_inv. split; [apply (canonical_zero L)|].
    assert (E : win window 0 data = []). { unfold win. now rewrite Nat.min_0_r. }
    rewrite E. split; [intros; apply (phi_zero L)|]. split; [reflexivity|]. split; [reflexivity|]. intros; lia.
  Qed.

  Lemma foldM_seq_inv {S} (f : S -> nat -> option S) (P : nat -> S -> Prop) n : forall a s,
    (forall i s, (a <= i < a + n)%nat -> P i s -> exists s', f s i = Some s' /\ P (Datatypes.S i) s') ->
    P a s -> exists s', foldM f (seq a n) s = Some s' /\ P (a + n)%nat s'.
  Proof.
    induction n as [|n IH]; intros a s H Ps.
    - exists s. rewrite Nat.add_0_r. auto.
    - destruct (H a s ltac:(lia) Ps) as (s1 & E1 & P1). cbn [seq foldM]. rewrite E1. cbn [obind].
      destruct (IH (Datatypes.S a) s1) as (s2 & E2 & P2).
      + intros i s' Hi. apply H. lia.
      + exact P1.
      + exists s2. split; [exact E2|]. replace (a + Datatypes.S n)%nat with (Datatypes.S a + n)%nat by lia. exact P2.
  Qed.

  Lemma rolling_core_ok window mc data : Forall Pos data ->
    exists rows, rolling_data_core K window mc data = Some rows /\ length rows = length data /\
      forall j, (j < length data)%nat -> nth j rows None = roll_expect window mc data j.
  Proof.
    intros HP. unfold rolling_data_core.
    destruct (foldM_seq_inv (roll_grow K mc data) (roll_inv window mc data)
                (Nat.min window (length data)) 0 (zero, 0%Z, [])) as (s1 & E1 & I1).
    - intros i s Hi. apply grow_step; auto; lia.
    - apply roll_inv0.
    - rewrite E1. cbn [obind]. cbn [Nat.add] in I1.
      destruct (Nat.le_gt_cases window (length data)) as [Hw|Hw].
      + rewrite Nat.min_l in I1 by exact Hw.
        destruct (foldM_seq_inv (roll_slide K window mc data) (roll_inv window mc data)
                    (length data - window) window s1) as (s2 & E2 & I2).
        * intros i s Hi. apply slide_step; auto; lia.
        * exact I1.
        * rewrite E2. cbn [obind]. destruct s2 as [[dm ct] rows].
          replace (window + (length data - window))%nat with (length data) in I2 by lia.
          destruct I2 as (_ & _ & _ & Lr & R). exists rows. auto.
      + replace (length data - window)%nat with 0%nat by lia. cbn [seq foldM obind].
        rewrite Nat.min_r in I1 by lia. destruct s1 as [[dm ct] rows].
        destruct I1 as (_ & _ & _ & Lr & R). exists rows. auto.
  Qed.

  (* rolling over values is rolling over the points *)
  Lemma rolling_vals_points (dflt : V * Qc) window mc xw :
    rolling_vals_core K dflt window mc xw = rolling_data_core K window mc (map (pt L) xw).
  Proof.
    unfold rolling_vals_core, rolling_data_core. rewrite map_length.
    assert (NTH : forall i, (i < length xw)%nat -> nth i (map (pt L) xw) zero = pt L (nth i xw dflt)).
    { intros i Hi. rewrite (nth_indep _ zero (pt L dflt)) by now rewrite map_length. apply map_nth. }
    rewrite (foldM_ext (rollv_grow K dflt mc xw) (roll_grow K mc (map (pt L) xw))).
    2:{ intros [[dm ct] rows] i Hi. apply in_seq in Hi. unfold rollv_grow, roll_grow.
        rewrite NTH by lia. destruct (nth i xw dflt) as [x w].
        rewrite (pt_wt L). cbn [snd]. destruct (qeqb w 0); [reflexivity|].
        rewrite (l_val _ _ L). reflexivity. }
    destruct (foldM _ (seq 0 _) _) as [st|]; cbn [obind]; [|reflexivity].
    rewrite (foldM_ext (rollv_slide K dflt window mc xw) (roll_slide K window mc (map (pt L) xw))); [reflexivity|].
    intros [[dm ct] rows] i Hi. apply in_seq in Hi. unfold rollv_slide, roll_slide.
    rewrite !NTH by lia. destruct (nth i xw dflt) as [x w]. destruct (nth (i - window) xw dflt) as [x' w'].
    rewrite !(pt_wt L). cbn [snd]. rewrite (l_val _ _ L). change (l_point L x w) with (pt L (x, w)).
    destruct (if qeqb w 0 then _ else _) as [[dm' ct']|]; cbn [obind]; [|reflexivity].
    rewrite (pushv_remove L). reflexivity.
  Qed.

  (* ---- exponential ---------------------------------------------------------- *)

  (* coefficients of the rows after processing a list of (alpha, weight), and
     the accumulated decay since the last contributing row *)
  Definition exp_step (adjust : bool) (s : list Qc * Qc) (aw : Qc * Qc) : list Qc * Qc :=
    let '(cs, D) := s in
    let '(al, w) := aw in
    let D' := D * (1 - al) in
    if adjust then (map (fun c => c * (1 - al)) cs ++ [1], D')
    else if qeqb w 0 then (map (fun c => c * (1 - al)) cs ++ [0], D')
    else (map (fun c => c * (1 - al) / (D' + al)) cs ++ [al / (D' + al)], 1).
  Definition exp_state adjust aws := fold_left (exp_step adjust) aws ([], 0).
  Definition exp_coefs adjust aws : list Qc := fst (exp_state adjust aws).

  Definition aw (s : Qc * A) : Qc * Qc := (fst s, wt (snd s)).
  Definition rows_scaled adjust (ad : list (Qc * A)) : list A :=
    scale_rows (combine (exp_coefs adjust (map aw ad)) (map snd ad)).

  Definition exp_guard (adjust : bool) (al : Qc) : Prop :=
    0 <= al /\ al <= 1 /\ (adjust = false -> al <> 0).

  Definition exp_row_ok adjust mc (ad : list (Qc * A)) (r : option A) : Prop :=
    if (mc <=? Z.of_nat (nzcount (map (fun s => wt (snd s)) ad)))%Z
    then exists d, r = Some d /\ wf d /\ (forall k, dom k -> phi d k = sumphi (rows_scaled adjust ad) k) /\
         (sumwt (rows_scaled adjust ad) <> 0 -> reduce_data K (rows_scaled adjust ad) = Some d)
    else r = None.

  Lemma exp_state_snoc adjust l x : exp_state adjust (l ++ [x]) = exp_step adjust (exp_state adjust l) x.
  Proof. unfold exp_state. now rewrite fold_left_app. Qed.

  Lemma sum_scaled_combine cs ds k : Forall wf ds -> sumphi (scale_rows (combine cs ds)) k
    = suml (fun s => fst s * phi (snd s) k) (combine cs ds).
  Proof.
    intros H. unfold ProofKernels.sumphi, ProofKernels.scale_rows. rewrite suml_map. apply suml_ext.
    intros [c d] Hin. apply in_combine_r in Hin. rewrite Forall_forall in H. cbn [fst snd].
    now apply (scaled_phi L), H.
  Qed.

  Lemma combine_app {X Y} (a b : list X) (c d : list Y) : length a = length c ->
    combine (a ++ b) (c ++ d) = combine a c ++ combine b d.
  Proof. revert c. induction a; intros [|y c] H; cbn in *; try lia; [reflexivity|]. now rewrite IHa by lia. Qed.

  Lemma suml_combine_map (g : Qc) cs ds k :
    suml (fun s => fst s * phi (snd s) k) (combine (map (fun c => c * g) cs) ds)
    = g * suml (fun s => fst s * phi (snd s) k) (combine cs ds).
  Proof.
    revert ds. induction cs as [|c cs IH]; intros [|d ds]; cbn [map combine]; rewrite ?suml_nil; try ring.
    rewrite !suml_cons, IH. cbn [fst snd]. ring.
  Qed.

  Record exp_inv adjust (ad : list (Qc * A)) (mc : Z) (st : @estate A) : Prop := {
    ei_len : length (exp_coefs adjust (map aw ad)) = length ad;
    ei_pos : Forall (fun c => 0 <= c) (exp_coefs adjust (map aw ad));
    ei_wf : wf (fst (fst (fst st)));
    ei_phi : forall k, dom k -> phi (fst (fst (fst st))) k
        = suml (fun s => fst s * phi (snd s) k) (combine (exp_coefs adjust (map aw ad)) (map snd ad));
    ei_cnt : snd (fst (fst st)) = Z.of_nat (nzcount (map (fun s => wt (snd s)) ad));
    ei_old : snd (fst st) = snd (exp_state adjust (map aw ad)) /\ 0 <= snd (fst st);
    ei_rows : length (snd st) = length ad /\
       forall i, (i < length ad)%nat -> exp_row_ok adjust mc (firstn (S i) ad) (nth i (snd st) None)
  }.

  Lemma rows_scaled_pos adjust ad : Forall (fun s => Pos (snd s)) ad ->
    Forall (fun c => 0 <= c) (exp_coefs adjust (map aw ad)) -> Forall Pos (rows_scaled adjust ad).
  Proof.
    intros HP HC. apply (scale_rows_Pos L). apply Forall_forall. intros [c d] Hin. cbn [fst snd]. split.
    - apply in_combine_l in Hin. rewrite Forall_forall in HC. now apply HC.
    - apply in_combine_r in Hin. apply in_map_iff in Hin. destruct Hin as (s & <- & Hs).
      rewrite Forall_forall in HP. now apply HP.
  Qed.

  Lemma row_ok_of adjust mc ad dummy : Forall (fun s => Pos (snd s)) ad ->
    Forall (fun c => 0 <= c) (exp_coefs adjust (map aw ad)) -> wf dummy ->
    (forall k, dom k -> phi dummy k
        = suml (fun s => fst s * phi (snd s) k) (combine (exp_coefs adjust (map aw ad)) (map snd ad))) ->
    exp_row_ok adjust mc ad
      (if (mc <=? Z.of_nat (nzcount (map (fun s => wt (snd s)) ad)))%Z then Some dummy else None).
  Proof.
    intros HP HC W P. unfold exp_row_ok. destruct (_ <=? _)%Z; [|reflexivity].
    exists dummy. split; [reflexivity|]. split; [exact W|].
    assert (P' : forall k, dom k -> phi dummy k = sumphi (rows_scaled adjust ad) k).
    { intros k Hk. unfold rows_scaled. rewrite sum_scaled_combine; [now apply P|].
      apply Forall_map. revert HP. apply Forall_impl. now intros s [? _]. }
    split; [exact P'|]. intros N. pose proof (rows_scaled_pos adjust ad HP HC) as HR.
    apply canonical_reduce; auto. apply (canonical_nz L); [exact W|]. now rewrite (wt_sum _ _ P').
  Qed.

  Lemma setwt_scale_phi v d k : wf d -> phi (p_setwt K (wt d * v) d) k = v * phi d k.
  Proof. apply (scaled_phi L). Qed.

  Lemma exp_step_ok adjust mc ad st al d : Forall (fun s => Pos (snd s)) ad -> Pos d -> exp_guard adjust al ->
    exp_inv adjust ad mc st ->
    exists st', rexp_step K adjust mc st (al, d) = Some st' /\ exp_inv adjust (ad ++ [(al, d)]) mc st'.
  Proof.
    intros HP [Wd Pd] (Al0 & Al1 & Alnz) Inv.
    destruct st as [[[dummy count] old] rows]. destruct Inv as [Len Pc W P N [O Opos] [Lr R]].
    cbn [fst snd] in *.
    assert (Dn : 0 <= 1 - al) by now apply Qc_sub_nonneg.
    set (dm := p_setwt K (wt dummy * (1 - al)) dummy).
    assert (Wdm : wf dm) by now apply (l_wf_setwt _ _ L).
    assert (Pdm : forall k, dom k -> phi dm k = (1 - al) *
       suml (fun s => fst s * phi (snd s) k) (combine (exp_coefs adjust (map aw ad)) (map snd ad))).
    { intros k Hk. unfold dm. rewrite setwt_scale_phi by exact W. now rewrite P. }
    set (E0 := exp_state adjust (map aw ad)) in *.
    assert (ES : exp_state adjust (map aw (ad ++ [(al, d)])) = exp_step adjust E0 (al, wt d)).
    { rewrite map_app. cbn [map]. unfold aw at 2. cbn [fst snd]. apply exp_state_snoc. }
    assert (EC : exp_coefs adjust (map aw ad) = fst E0) by reflexivity. rewrite EC in *.
    destruct E0 as [cs D]. cbn [fst snd] in *. subst old.
    assert (wtdummy : 0 <= wt dummy).
    { rewrite <- (phi_i0 L), P by apply l_i0_dom. apply suml_nonneg. intros [c x] Hin. cbn [fst snd].
      rewrite (phi_i0 L). apply Qc_mul_nonneg.
      - apply in_combine_l in Hin. rewrite Forall_forall in Pc. now apply Pc.
      - apply in_combine_r in Hin. apply in_map_iff in Hin. destruct Hin as (s & <- & Hs).
        rewrite Forall_forall in HP. now apply HP. }
    assert (wtdm : 0 <= wt dm).
    { unfold dm. rewrite (l_wt_setwt _ _ L) by exact W. now apply Qc_mul_nonneg. }
    assert (Dn' : 0 <= D * (1 - al)) by now apply Qc_mul_nonneg.
    (* the common ending *)
    assert (Fin : forall dum ct old' cs' D',
      exp_step adjust (cs, D) (al, wt d) = (cs', D') -> wf dum ->
      length cs' = S (length cs) -> Forall (fun c => 0 <= c) cs' ->
      (forall k, dom k -> phi dum k = suml (fun s => fst s * phi (snd s) k) (combine cs' (map snd (ad ++ [(al, d)])))) ->
      ct = Z.of_nat (nzcount (map (fun s => wt (snd s)) (ad ++ [(al, d)]))) ->
      old' = D' -> 0 <= old' ->
      exp_inv adjust (ad ++ [(al, d)]) mc
        (dum, ct, old', rows ++ [if (mc <=? ct)%Z then Some dum else None])).
    { intros dum ct old' cs' D' Es Wdum Lcs Pcs Pd' Nd Oo Opo.
      assert (EC' : exp_coefs adjust (map aw (ad ++ [(al, d)])) = cs').
      { unfold exp_coefs. rewrite ES, Es. reflexivity. }
      assert (HP' : Forall (fun s : Qc * A => Pos (snd s)) (ad ++ [(al, d)])).
      { apply Forall_app. split; [exact HP|]. constructor; [|constructor]. now split. }
      split; cbn [fst snd]; rewrite ?EC'; auto.
      - rewrite Lcs, app_length. cbn. lia.
      - rewrite ES, Es. cbn [snd]. auto.
      - split; [rewrite !app_length; cbn; lia|]. intros i Hi. rewrite app_length in Hi. cbn in Hi.
        destruct (Nat.eq_dec i (length ad)) as [->|Ni].
        + rewrite app_nth2 by lia. rewrite Lr, Nat.sub_diag. cbn [nth].
          rewrite firstn_all2 by (rewrite app_length; cbn; lia). rewrite Nd.
          apply row_ok_of; auto; rewrite EC'; auto.
        + rewrite app_nth1 by lia. rewrite firstn_app.
          replace (S i - length ad)%nat with 0%nat by lia. cbn [firstn]. rewrite app_nil_r. apply R. lia. }
    assert (Cn : nzcount (map (fun s => wt (snd s)) (ad ++ [(al, d)]))
              = (nzcount (map (fun s => wt (snd s)) ad) + (if qeqb (wt d) 0 then 0 else 1))%nat).
    { rewrite map_app, nzcount_app. cbn [map snd]. rewrite nzcount_cons. cbn. lia. }
    assert (SumSnoc : forall c0 g k,
      suml (fun s => fst s * phi (snd s) k) (combine (map (fun c => c * g) cs ++ [c0]) (map snd (ad ++ [(al, d)])))
      = g * suml (fun s => fst s * phi (snd s) k) (combine cs (map snd ad)) + c0 * phi d k).
    { intros c0 g k. rewrite map_app. cbn [map snd].
      rewrite combine_app by (rewrite !map_length; lia). rewrite suml_app, suml_combine_map.
      cbn [combine]. rewrite suml_cons, suml_nil. cbn [fst snd]. ring. }
    unfold rexp_step. fold dm.
    destruct (qeqb_spec (wt d) 0) as [Z|Nz].
    - cbn [obind]. eexists. split; [reflexivity|].
      destruct adjust.
      + eapply Fin; [reflexivity|exact Wdm| | | | |reflexivity|exact Dn'].
        * rewrite app_length, map_length. cbn. lia.
        * apply Forall_app. split.
          { apply Forall_map. revert Pc. apply Forall_impl. intros c Hc. now apply Qc_mul_nonneg. }
          { constructor; [|constructor]. apply Qclt_le_weak, Qc_0_lt_1. }
        * intros k Hk. rewrite SumSnoc, Pdm, (phi_wt0 L d k Z) by exact Hk. ring.
        * rewrite N, Cn. cbn. lia.
      + eapply Fin; [cbn [exp_step]; rewrite Z, qeqb_refl; reflexivity|exact Wdm| | | | |reflexivity|exact Dn'].
        * rewrite app_length, map_length. cbn. lia.
        * apply Forall_app. split.
          { apply Forall_map. revert Pc. apply Forall_impl. intros c Hc. now apply Qc_mul_nonneg. }
          { constructor; [|constructor]. apply Qcle_refl. }
        * intros k Hk. rewrite SumSnoc, Pdm, (phi_wt0 L d k Z) by exact Hk. ring.
        * rewrite N, Cn. cbn. lia.
    - assert (Wpos : 0 < wt d). { destruct (Qc_le_lt_eq _ Pd); [contradiction|assumption]. }
      destruct adjust.
      + rewrite (pushs_scaled L) by exact Wd. rewrite (scaled_1 L) by exact Wd.
        destruct (push_ok L d dm Wd Wdm) as (r & E & Wr & Tr & Pr & _).
        { intros _. apply Qc_lt_neq. now apply Qc_add_pos_r. }
        rewrite E. cbn [obind]. eexists. split; [reflexivity|].
        eapply Fin; [reflexivity|exact Wr| | | | |reflexivity|exact Dn'].
        * rewrite app_length, map_length. cbn. lia.
        * apply Forall_app. split.
          { apply Forall_map. revert Pc. apply Forall_impl. intros c Hc. now apply Qc_mul_nonneg. }
          { constructor; [|constructor]. apply Qclt_le_weak, Qc_0_lt_1. }
        * intros k Hk. rewrite SumSnoc, Pr, Pdm by exact Hk. ring.
        * rewrite N, Cn. lia.
      + assert (Alpos : 0 < al).
        { destruct (Qc_le_lt_eq _ Al0) as [Z|Z]; [exfalso; now apply Alnz|exact Z]. }
        rewrite (pushs_scaled L) by exact Wd.
        destruct (push_ok L (scaled al d) dm) as (r & E & Wr & Tr & Pr & _).
        { now apply (scaled_wf L). }
        { exact Wdm. }
        { intros _. rewrite (scaled_wt L) by exact Wd. apply Qc_lt_neq, Qc_add_pos_r; [exact wtdm|].
          now apply Qc_mul_pos. }
        rewrite E. cbn [obind].
        assert (Opos' : 0 < D * (1 - al) + al) by now apply Qc_add_pos_r.
        rewrite (qeqb_neq _ _ (Qc_lt_neq _ Opos')). cbn [obind].
        eexists. split; [reflexivity|].
        set (den := D * (1 - al) + al) in *.
        assert (dnz : den <> 0) by now apply Qc_lt_neq.
        eapply Fin; [cbn [exp_step]; rewrite (qeqb_neq _ _ Nz); reflexivity| | | | | |reflexivity|].
        * now apply (l_wf_setwt _ _ L).
        * rewrite app_length, map_length. cbn. lia.
        * apply Forall_app. split.
          { apply Forall_map. revert Pc. apply Forall_impl. intros c Hc. apply Qc_div_nonneg; [|exact Opos'].
            now apply Qc_mul_nonneg. }
          { constructor; [|constructor]. now apply Qc_div_nonneg. }
        * intros k Hk. fold den.
          rewrite (map_ext _ (fun c => c * ((1 - al) / den))) by (intros c; unfold Qcdiv; ring).
          rewrite SumSnoc. unfold Qcdiv at 1. rewrite setwt_scale_phi by exact Wr.
          rewrite Pr, Pdm, (scaled_phi L) by auto. field. exact dnz.
        * rewrite N, Cn. lia.
        * apply Qclt_le_weak, Qc_0_lt_1.
  Qed.

  Lemma rolling_exp_ok adjust mc ad : Forall (fun s => Pos (snd s) /\ exp_guard adjust (fst s)) ad ->
    exists rows, rolling_exp_data K adjust mc ad = Some rows /\ length rows = length ad /\
      forall i, (i < length ad)%nat ->
        exp_row_ok adjust (Z.max mc 1) (firstn (S i) ad) (nth i rows None).
  Proof.
    intros H. unfold rolling_exp_data.
    assert (X : exists st, foldM (rexp_step K adjust (Z.max mc 1)) ad (zero, 0%Z, 0, []) = Some st /\
               exp_inv adjust ad (Z.max mc 1) st).
    { induction ad as [|[al d] l IH] using rev_ind.
      - eexists. split; [reflexivity|]. split; cbn [fst snd]; auto.
        + constructor.
        + apply l_wf_zero.
        + intros k Hk. rewrite (phi_zero L). reflexivity.
        + split; [reflexivity|apply Qcle_refl].
        + split; [reflexivity|]. cbn. intros; lia.
      - apply Forall_app in H. destruct H as [Hl Hx]. inversion Hx as [|? ? [Hd Hal] _]; subst.
        destruct (IH Hl) as (st & E & Inv). cbn [fst snd] in *.
        destruct (exp_step_ok adjust (Z.max mc 1) l st al d) as (st' & E' & Inv'); auto.
        { revert Hl. apply Forall_impl. now intros s [? _]. }
        exists st'. split; [|exact Inv']. rewrite foldM_app, E. cbn [obind foldM]. now rewrite E'. }
    destruct X as (st & E & Inv). rewrite E. cbn [obind]. destruct st as [[[dm ct] old] rows].
    exists rows. split; [reflexivity|]. apply (ei_rows _ _ _ _ Inv).
  Qed.

  Lemma rolling_exp_vals_points adjust mc (ax : list (Qc * (V * Qc))) :
    rolling_exp_vals K adjust mc ax = rolling_exp_data K adjust mc (map (fun s => (fst s, pt L (snd s))) ax).
  Proof.
    unfold rolling_exp_vals, rolling_exp_data. rewrite foldM_map. f_equal.
    apply foldM_ext. intros [[[dm ct] old] rows] [al [x w]] _. unfold rexpv_step, rexp_step. cbn [fst snd].
    rewrite (pt_wt L). cbn [snd]. destruct (qeqb w 0); [reflexivity|].
    rewrite (pushs_scaled L) by apply (pt_wf L). rewrite (l_val _ _ L).
    replace (l_point L x (if adjust then w else w * al)) with (scaled (if adjust then 1 else al) (pt L (x, w))); [reflexivity|].
    unfold ProofKernels.scaled, pt. cbn [fst snd]. rewrite (l_point_wt _ _ L), (l_point_setwt _ _ L).
    f_equal. destruct adjust; ring.
  Qed.
End Roll.
