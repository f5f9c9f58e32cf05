(* Properties of functions that act along one axis of arrays of values. *)
From Coq Require Import Permutation.
From Verif Require Import Base BaseLemmas ModelPush ModelPushCov ModelKernels ModelIndex ModelAxes ModelNd Spec SpecAxes SpecNd
  ProofPush ProofPushCov Laws ProofKernels ProofSpec ProofIndex ProofLabels ProofAxes ProofArrays ProofMulti ProofNd PropNd ProofNdVals Checks.

(* ---- the frame of the result ------------------------------------------------------------ *)

Section Frame.
  Context {A : Type} (P : packer A) (HP : packer_ok P) (Sh : list nat) (a r : nat) (to_end : bool).
  Let N := length Sh.
  Let m := length (pk_shape P).
  Let M := seq N m.
  Hypothesis Ha : a + r + 1 = N.
  Let Fr := frame Sh (pk_shape P).

  Lemma frame_ndim : tndim Fr = N + m.
  Proof. unfold Fr, frame, tndim. cbn [tabulate tshape]. now rewrite app_length. Qed.
  Lemma frame_shape j : j < N -> shape_of Fr j = Dv Sh j.
  Proof. intros H. unfold shape_of, Fr, frame, Dv. cbn [tabulate tshape]. now rewrite app_nth1. Qed.
  Lemma frame_moments : map (shape_of Fr) M = pk_shape P.
  Proof.
    apply (nth_ext _ _ 0 0); [unfold M; now rewrite map_length, seq_length|]. intros k Hk. unfold M in Hk. rewrite map_length, seq_length in Hk.
    unfold M. rewrite (nth_map_in _ _ _ _ 0) by (now rewrite seq_length). rewrite seq_nth by exact Hk.
    unfold shape_of, Fr, frame. cbn [tabulate tshape]. rewrite app_nth2 by (fold N; lia). f_equal. fold N. lia.
  Qed.
  Lemma frame_NoDup : NoDup (a :: M).
  Proof. constructor; [|apply seq_NoDup]. intros H. apply in_seq in H. lia. Qed.
  Lemma frame_axis : axis_of_moments P (axes_last m) (AInt (Z.of_nat a)) a M Fr.
  Proof.
    split; [apply tabulate_ok|]. rewrite frame_ndim. split; [|split; [|split]].
    - apply axes_last_positions; [lia|]. unfold M. f_equal. lia.
    - cbn. split; [lia|left; lia].
    - exact frame_NoDup.
    - exact frame_moments.
  Qed.
  Lemma frame_loop : except_nat (seq 0 (tndim Fr)) (a :: M) = Lv N a.
  Proof.
    rewrite frame_ndim, seq_app, except_app. cbn [plus]. rewrite (except_all _ (seq N m) (a :: M)), app_nil_r by (intros x Hx; now right).
    unfold Lv. unfold except. apply filter_ext_in. intros b Hb. apply in_seq in Hb.
    destruct (in_dec Nat.eq_dec b (a :: M)) as [[E|E]|E], (in_dec Nat.eq_dec b [a]) as [E'|E']; try reflexivity.
    - exfalso. apply E'. now left.
    - apply in_seq in E. lia.
    - exfalso. apply E. destruct E' as [E'|[]]. now left.
  Qed.
  Lemma frame_loop_shape : map (shape_of Fr) (Lv N a) = map (Dv Sh) (Lv N a).
  Proof. apply map_ext_in. intros j Hj. apply (Lv_In N Sh a r eq_refl Ha) in Hj. now apply frame_shape. Qed.
  Lemma frame_inside env : inside (shape_of Fr) (Lv N a) env -> inside (Dv Sh) (Lv N a) env.
  Proof. intros I j Hj. rewrite <- frame_shape; [now apply I|]. now apply (Lv_In N Sh a r eq_refl Ha) in Hj. Qed.
  Lemma inside_frame env : inside (Dv Sh) (Lv N a) env -> inside (shape_of Fr) (Lv N a) env.
  Proof. intros I j Hj. rewrite frame_shape; [now apply I|]. now apply (Lv_In N Sh a r eq_refl Ha) in Hj. Qed.
  Lemma frame_axes : column_axes to_end (tndim Fr) a M = OXv N a to_end ++ M.
  Proof.
    unfold column_axes, OXv. rewrite frame_loop. destruct to_end; [now rewrite <- app_assoc|]. rewrite frame_ndim. unfold M. apply seq_app.
  Qed.
  Lemma frame_result k : map (fun b => if Nat.eqb b a then k else shape_of Fr b) (column_axes to_end (tndim Fr) a M)
    = map (Dn Sh a k) (OXv N a to_end) ++ pk_shape P.
  Proof.
    rewrite frame_axes, map_app. f_equal.
    - apply map_ext_in. intros j Hj. apply (OXv_In N Sh a r to_end eq_refl Ha) in Hj. unfold Dn. destruct (Nat.eqb j a); [reflexivity|]. now apply frame_shape.
    - rewrite <- frame_moments. apply map_ext_in. intros j Hj. apply in_seq in Hj. destruct (Nat.eqb_spec j a); [lia|reflexivity].
  Qed.
  Lemma frame_core : Forall2 (is_axis (tndim Fr)) ((axis_out r to_end - Z.of_nat m)%Z :: axes_last m)
    (map (fun c => index_of c (column_axes to_end (tndim Fr) a M)) (a :: M)).
  Proof.
    rewrite frame_axes. assert (ND : NoDup (OXv N a to_end ++ M)).
    { apply NoDup_app_; [apply (OXv_NoDup N Sh a r to_end eq_refl Ha)|apply seq_NoDup|]. intros x Hx Hy. apply (OXv_In N Sh a r to_end eq_refl Ha) in Hx. apply in_seq in Hy. lia. }
    assert (IA : In a (OXv N a to_end)) by (apply (OXv_In N Sh a r to_end eq_refl Ha); lia).
    pose proof (OXv_length N Sh a r to_end eq_refl Ha) as LO.
    cbn [map]. constructor.
    - assert (E : index_of a (OXv N a to_end ++ M) = index_of a (OXv N a to_end)).
      { destruct (index_of_lt a _ IA) as [H1 H2].
        rewrite <- H2 at 1. rewrite <- (app_nth1 _ M 0 H1). apply index_of_nth; [exact ND|rewrite app_length; lia]. }
      rewrite E, frame_ndim. pose proof (OXv_axis N Sh a r to_end eq_refl Ha) as X.
      destruct X as [X1 X2]. split; [lia|]. right. unfold axis_out in *. destruct to_end; lia.
    - rewrite positions_tail by exact ND. apply axes_last_positions; rewrite frame_ndim; [lia|]. unfold M. rewrite seq_length. f_equal; lia.
  Qed.

  Lemma frame_positions : map (fun c => index_of c (column_axes to_end (tndim Fr) a M)) M = M.
  Proof.
    pose proof (OXv_length N Sh a r to_end eq_refl Ha) as LX. rewrite frame_axes, positions_tail.
    - rewrite LX. unfold M. now rewrite seq_length.
    - apply NoDup_app_; [apply (OXv_NoDup N Sh a r to_end eq_refl Ha)|apply seq_NoDup|].
      intros j Hj Hj'. apply (OXv_In N Sh a r to_end eq_refl Ha) in Hj. apply in_seq in Hj'. lia.
  Qed.
  Lemma frame_position : Z.to_nat (axis_out r to_end + Z.of_nat N) = index_of a (column_axes to_end (tndim Fr) a M).
  Proof.
    pose proof frame_core as C. inversion C as [|? ? ? ? C1 _]. destruct C1 as [C1 C2]. rewrite frame_ndim in C1, C2 |- *.
    unfold axis_out in *. destruct to_end; lia.
  Qed.
  Lemma frame_length k : length (map (Dn Sh a k) (OXv N a to_end) ++ pk_shape P) = N + m.
  Proof. now rewrite app_length, map_length, (OXv_length N Sh a r to_end eq_refl Ha). Qed.

  Context (nsamp nlen : nat) (f : tensor -> (nat -> nat) -> Qc) (ts us : list tensor).
  Hypothesis HR : Forall2 (ready N Sh a r nsamp to_end nlen f) ts us.
  Let ops := map (fun p => opnd N a r to_end (fst p) (snd p)) (combine ts us).
  Context (pre : list garg) (pins : list (tensor * list nat)).
  Hypothesis HE : mapR core_axes pre = Ok pins.
  Hypothesis HL : Forall (loop_fits N Sh a) pins.

  Lemma mapR_app {X Y} (g : X -> res Y) l1 l2 r1 r2 : mapR g l1 = Ok r1 -> mapR g l2 = Ok r2 -> mapR g (l1 ++ l2) = Ok (r1 ++ r2).
  Proof.
    revert r1. induction l1 as [|x l1 IH]; cbn; intros r1; [now intros [= <-]|]. destruct (g x) as [y|]; cbn [rbind]; [|discriminate].
    destruct (mapR g l1) as [q|]; cbn [rbind]; [|discriminate]. intros [= <-] H2. now rewrite (IH q eq_refl H2).
  Qed.
  Lemma values_cores : mapR core_axes (pre ++ with_axes (axis_out r to_end) us) = Ok (pins ++ ops) /\ Forall (loop_fits N Sh a) (pins ++ ops).
  Proof.
    destruct (ready_cores N Sh a r nsamp to_end eq_refl Ha nlen f ts us HR) as [H1 H2]. split; [now apply mapR_app|].
    apply Forall_app. now split.
  Qed.

  Context {B T : Type} (d : T) (value : B -> list nat -> T) (entries : list B -> list nat -> T).
  Hypothesis Hentries : forall rows i c b, nth_error rows i = Some b -> entries rows (i :: c) = value b c.

  Lemma values_inout init F run newlen :
    (forall env, inside (Dv Sh) (Lv N a) env -> F init (map (fun g => core_elem g (map env (Lv N a))) (pins ++ ops)) = run env) ->
    (forall env rows, inside (Dv Sh) (Lv N a) env -> run env = Ok rows -> length rows = newlen) ->
    by_columns (B:=B) d value run to_end newlen a M Fr
      (gufunc_inout init entries (pre ++ with_axes (axis_out r to_end) us) (map (Dn Sh a newlen) (OXv N a to_end) ++ pk_shape P)
         ((axis_out r to_end - Z.of_nat m)%Z :: axes_last m) F).
  Proof.
    intros H1 H2. destruct values_cores as [C1 C2]. rewrite <- frame_result.
    apply (columns_inout P (axes_last m) (AInt (Z.of_nat a)) to_end a M Fr _ _ frame_axis frame_core d value entries Hentries _ (pins ++ ops)).
    - exact C1.
    - rewrite frame_loop, frame_loop_shape. apply loops_broadcast. exact C2.
    - intros env I. rewrite frame_loop in I |- *. apply H1. now apply frame_inside.
    - intros env rows I. rewrite frame_loop in I. apply H2. now apply frame_inside.
  Qed.
  Lemma values_gufunc F run newlen :
    broadcast_shapes (map loop_shape (pins ++ ops)) = Ok (map (Dv Sh) (Lv N a)) ->
    (forall env, inside (Dv Sh) (Lv N a) env -> F (map (fun g => core_elem g (map env (Lv N a))) (pins ++ ops)) = rmap entries (run env)) ->
    (forall env rows, inside (Dv Sh) (Lv N a) env -> run env = Ok rows -> length rows = newlen) ->
    by_columns (B:=B) d value run to_end newlen a M Fr
      (gufunc d (pre ++ with_axes (axis_out r to_end) us) ((axis_out r to_end - Z.of_nat m)%Z :: axes_last m) (newlen :: pk_shape P) F).
  Proof.
    intros H0 H1 H2. destruct values_cores as [C1 C2].
    apply (columns_gufunc P (axes_last m) (AInt (Z.of_nat a)) to_end a M Fr _ _ frame_axis frame_core d value entries Hentries _ (pins ++ ops)).
    - exact C1.
    - rewrite frame_loop, frame_loop_shape. exact H0.
    - intros env I. rewrite frame_loop in I |- *. apply H1. now apply frame_inside.
    - intros env rows I. rewrite frame_loop in I. apply H2. now apply frame_inside.
  Qed.
End Frame.

(* ---- preparing --------------------------------------------------------------------------- *)

Section Prepare.
  Context (axis : axis_arg) (to_end : bool) (Sh : list nat) (r : nat) (x : tensor) (others : list tensor).
  Hypothesis HA : samples_agree x others axis r.
  Hypothesis HB : broadcasts (map tshape (shaping x others)) Sh.
  Let N := length Sh.
  Let a := N - 1 - r.
  Let nsamp := dim_from_end x r.

  Lemma values_first : r < tndim x /\ tndim x <= N.
  Proof.
    destruct HA as (_ & (p & Hp & E) & _). split; [lia|]. destruct HB as (B1 & _). apply (B1 (tshape x)). now left.
  Qed.
  Lemma values_axis : a + r + 1 = N.
  Proof. pose proof values_first. unfold a. lia. Qed.
  Lemma values_one : tndim x = 1 -> r = 0.
  Proof. pose proof values_first. lia. Qed.
  Lemma values_fit t : In t (x :: others) -> fits N Sh r nsamp t.
  Proof.
    intros Ht. pose proof values_first as [F1 F2]. destruct HA as (Hx & _ & HO). destruct HB as (B1 & _ & B3).
    assert (IS : 2 <= tndim t -> In (tshape t) (map tshape (shaping x others))).
    { intros H2. destruct Ht as [<-|Ht]; [now left|]. right. apply in_map. apply filter_In. split; [exact Ht|]. apply Nat.ltb_lt. lia. }
    constructor.
    - destruct Ht as [<-|Ht]; [exact Hx|]. now apply HO.
    - destruct (Nat.le_gt_cases (tndim t) 1) as [H|H]; [lia|]. exact (B1 _ (IS H)).
    - destruct Ht as [<-|Ht]; [|now apply HO]. destruct (Nat.eq_dec (tndim x) 1) as [E|E].
      + right. left. split; [exact E|]. unfold nsamp, dim_from_end. now rewrite (values_one E).
      + right. right. split; [lia|]. split; [exact F1|reflexivity].
    - intros H2 k Hk _. pose proof (B1 _ (IS H2)) as LN. change (length (tshape t)) with (tndim t) in LN.
      apply (B3 k ltac:(lia)). now apply IS.
  Qed.
  Lemma prepare_values_ready : exists ux us,
    prepare_values (S (length others)) axis to_end x others = Ok (axis_out r to_end, (ux, us)) /\
    Forall2 (ready N Sh a r nsamp to_end nsamp (val N a)) (x :: others) (ux :: us) /\ dim_at ux (axis_out r to_end) = nsamp.
  Proof.
    pose proof values_first as [F1 F2]. pose proof values_axis as Hax.
    destruct HA as (Hx & (p & Hp & Ep) & _). unfold prepare_values. rewrite Nat.eqb_refl. cbn [negb].
    assert (EN : normalize_axis_index axis (tndim x) None = Ok p) by (apply normalize_index_ok; exact Hp).
    rewrite EN. cbn [rbind]. cbv zeta.
    assert (EZ : positive_to_negative_index (Z.of_nat p) (Z.of_nat (tndim x)) = (-1 - Z.of_nat r)%Z).
    { unfold positive_to_negative_index. destruct (Z.ltb_spec (Z.of_nat p) 0); lia. }
    rewrite EZ.
    assert (EP : nth p (tshape x) 0 = nsamp).
    { unfold nsamp, dim_from_end. rewrite from_end_nth by exact F1. f_equal. change (length (tshape x)) with (tndim x). lia. }
    rewrite EP.
    destruct (primary_view N Sh a r nsamp to_end eq_refl Hax x (values_fit x (or_introl eq_refl)) ltac:(lia) values_one) as (ux & Eu & Vu & Du).
    unfold moved in Eu. rewrite Eu. cbn [rbind].
    assert (G : forall l, (forall t, In t l -> In t (x :: others)) -> exists us, mapR (prepare_secondary (-1 - Z.of_nat r) nsamp to_end) l = Ok us /\
       Forall2 (ready N Sh a r nsamp to_end nsamp (val N a)) l us).
    { induction l as [|t l IH]; intros Hl; [exists []; now split|]. destruct IH as (us & E1 & E2); [intros t' Ht'; apply Hl; now right|].
      assert (Ft := values_fit t (Hl t (or_introl eq_refl))).
      destruct (secondary_view N Sh a r nsamp to_end eq_refl Hax t Ft) as (u & Eu' & Vu'). exists (u :: us). cbn [mapR]. rewrite Eu'. cbn [rbind].
      rewrite E1. split; [reflexivity|]. constructor; [now split|exact E2]. }
    destruct (G others ltac:(intros t Ht; now right)) as (us & E1 & E2). rewrite E1. cbn [rbind]. exists ux, us.
    split; [reflexivity|]. split; [|exact Du]. constructor; [|exact E2]. split; [apply values_fit; now left|exact Vu].
  Qed.
End Prepare.

Section Samples.
  Context {A V : Type} (K : pusher A V) (P : packer A) (R : reader V).
  Context (to_end : bool) (Sh : list nat) (a r : nat) (x w : tensor) (y us : list tensor).
  Let N := length Sh.
  Let nsamp := dim_from_end x r.
  Hypothesis Ha : a + r + 1 = N.
  Hypothesis HR : Forall2 (ready N Sh a r nsamp to_end nsamp (val N a)) (x :: w :: y) us.
  Lemma samples_read env : inside (Dv Sh) (Lv N a) env ->
    core_samples R nsamp (map (fun g => core_elem g (map env (Lv N a))) (map (fun p => opnd N a r to_end (fst p) (snd p)) (combine (x :: w :: y) us)))
    = samples_at R x w y r (counted_from_end N env).
  Proof.
    intros I. rewrite (ready_samples N Sh a r nsamp to_end eq_refl Ha R nsamp (val N a) x w y us env HR I).
    assert (FT : forall t, In t (x :: w :: y) -> fits N Sh r nsamp t).
    { clear - HR. revert HR. generalize (x :: w :: y). intros l H. induction H as [|t u l us [F _] H IH]; [intros t []|]. intros t' [<-|Ht]; [exact F|now apply IH]. }
    unfold samples_at. fold nsamp. apply map_ext_in. intros i _. f_equal.
    - f_equal. apply map_ext_in. intros t Ht. apply (elem_val N Sh a r nsamp eq_refl Ha). apply FT. destruct Ht as [<-|Ht]; [now left|]. right. now right.
    - apply (elem_val N Sh a r nsamp eq_refl Ha). apply FT. right. now left.
  Qed.
End Samples.

(* ---- functions of values ------------------------------------------------------------------ *)

Lemma va_array {A V} (K : pusher A V) ok P R : values_array K ok P R -> moment_array K ok P.
Proof. intros H. destruct H; now constructor. Qed.

Theorem reduce_vals_array : forall {A V} (K : pusher A V) ok P R, values_array K ok P R ->
  forall axis r x w y s, values_ok P axis r x w y s ->
  let a := length s - 1 - r in
  let L := except_nat (seq 0 (length s)) [a] in
  let M := seq (length s) (length (pk_shape P)) in
  let shape := shape_of (frame s (pk_shape P)) in
  match reduce_vals_nd K P R axis x w y with
  | Ok out => tensor_ok out /\ tshape out = map shape (L ++ M) /\
      forall env, inside shape (L ++ M) env ->
        exists o, reduce_vals K (samples_in R x w y r s env) = Some o /\ tget out (map env (L ++ M)) = pk_unpack P o (map env M)
  | Raise e => e = EZeroDiv /\ exists env, inside shape L env /\ reduce_vals K (samples_in R x w y r s env) = None
  end.
Proof.
  intros A V K ok P R HV axis r x w y s (Hy & HA & HB) a L M shape. pose proof (ma_packer _ _ _ (va_array _ _ _ _ HV)) as HP.
  pose proof (values_axis axis s r x (w :: y) HA HB) as Hax. fold a in Hax.
  destruct (prepare_values_ready axis false s r x (w :: y) HA HB) as (ux & us & EP & HR & HD). fold a in HR.
  unfold reduce_vals_nd. unfold mom_ndim. rewrite <- Hy. change (S (length y)) with (length (w :: y)). rewrite EP. cbn [rbind]. cbv zeta. rewrite HD.
  pose proof (values_first axis s r x (w :: y) HA HB) as [F1 F2].
  destruct (result_shape (length s) s a r (dim_from_end x r) false eq_refl Hax (dim_from_end x r) (val (length s) a) x (w :: y) (ux :: us) (pk_shape P) 0
              HR ltac:(lia) (values_one axis s r x (w :: y) HA HB) HB) as [_ ER].
  rewrite ER. cbn [rbind]. set (n := dim_from_end x r) in *. set (N := length s) in *. set (m := length (pk_shape P)) in *.
  change (length (w :: y)) with (S (length y)). rewrite Hy.
  assert (EL : L = Lv N a) by reflexivity. rewrite <- EL.
  assert (LI : forall j, In j L -> j < N) by (intros j Hj; apply (Lv_In N s a r eq_refl Hax) in Hj; lia).
  assert (ES : map (Dv s) L ++ pk_shape P = map shape (L ++ M)).
  { rewrite map_app. f_equal; [|symmetry; unfold shape, M; exact (frame_moments P s a r Hax)].
    apply map_ext_in. intros j Hj. symmetry. apply frame_shape. now apply LI. }
  rewrite ES.
  assert (NL : NoDup (L ++ M)).
  { apply NoDup_app_; [apply NoDup_Lv|apply seq_NoDup|]. intros j Hj Hj'. apply LI in Hj. apply in_seq in Hj'. lia. }
  destruct (ready_cores N s a r n false eq_refl Hax n (val N a) (x :: w :: y) (ux :: us) HR) as [C1 C2].
  set (ops := map (fun p => opnd N a r false (fst p) (snd p)) (combine (x :: w :: y) (ux :: us))) in *.
  pose proof (gufunc_inout_named 0%Qc L (Dv s) (L ++ M) M shape NL) as G.
  assert (NM : NoDup M) by apply seq_NoDup.
  assert (IM : incl M (L ++ M)) by (intros j Hj; apply in_or_app; now right).
  assert (EX : except_nat (L ++ M) M = L).
  { rewrite except_app, (except_all _ M M), app_nil_r by auto. apply except_none. intros j Hj Hj'. apply LI in Hj. apply in_seq in Hj'. lia. }
  assert (ED : forall j, In j L -> shape j = Dv s j) by (intros j Hj; apply frame_shape; now apply LI).
  specialize (G NM IM EX ED A (p_zero K) (pk_unpack P) (with_axes (axis_out r false) (ux :: us)) ops (axes_last m)
    (fun cur l => of_opt EZeroDiv (reduce_vals_into K (core_samples R n l) cur))
    (fun env => of_opt EZeroDiv (reduce_vals K (samples_in R x w y r s env))) C1).
  assert (LL : length (L ++ M) = length L + m) by (rewrite app_length; unfold M; now rewrite seq_length).
  specialize (G (loops_broadcast N s a ops C2)).
  assert (FC : Forall2 (is_axis (length (L ++ M))) (axes_last m) (map (fun c => index_of c (L ++ M)) M)).
  { rewrite positions_tail by exact NL. apply axes_last_positions; [lia|]. replace (length M) with m by (unfold M; now rewrite seq_length). f_equal; lia. }
  specialize (G FC).
  assert (HF : forall env, inside (Dv s) L env -> of_opt EZeroDiv (reduce_vals_into K (core_samples R n (map (fun g => core_elem g (map env L)) ops)) (p_zero K))
     = of_opt EZeroDiv (reduce_vals K (samples_in R x w y r s env))).
  { intros env I. rewrite EL in I. unfold samples_in, reduce_vals. rewrite <- (samples_read R false s a r x w y (ux :: us) Hax HR env I). reflexivity. }
  specialize (G HF). destruct (gufunc_inout _ _ _ _ _ _) as [g|e]; cbn [rmap rbind].
  - destruct G as (G1 & G2 & G3). split; [exact G1|]. split; [exact G2|]. intros env I. destruct (G3 env I) as (o & Eo & Eg).
    destruct (reduce_vals K (samples_in R x w y r s env)) as [o'|]; [|discriminate]. injection Eo as ->. now exists o.
  - destruct G as (env & I & E). destruct (reduce_vals K (samples_in R x w y r s env)) eqn:Er; [discriminate|]. injection E as <-.
    split; [reflexivity|]. exists env. split; [|exact Er]. intros j Hj. rewrite ED by exact Hj. now apply I.
Qed.

Lemma values_prepared {A} (P : packer A) axis to_end r x w y s : values_ok P axis r x w y s ->
  let a := length s - 1 - r in
  a + r + 1 = length s /\
  exists ux us, prepare_values (S (mom_ndim P)) axis to_end x (w :: y) = Ok (axis_out r to_end, (ux, us)) /\
    Forall2 (ready (length s) s a r (dim_from_end x r) to_end (dim_from_end x r) (val (length s) a)) (x :: w :: y) (ux :: us) /\
    dim_at ux (axis_out r to_end) = dim_from_end x r /\
    forall k, out_from_values (ux :: us) (pk_shape P) (axis_out r to_end) (Some k) = Ok (map (Dn s a k) (OXv (length s) a to_end) ++ pk_shape P).
Proof.
  intros (Hy & HA & HB) a. pose proof (values_axis axis s r x (w :: y) HA HB) as Hax. fold a in Hax. split; [exact Hax|].
  destruct (prepare_values_ready axis to_end s r x (w :: y) HA HB) as (ux & us & EP & HR & HD). fold a in HR.
  exists ux, us. unfold mom_ndim. rewrite <- Hy. change (S (length y)) with (length (w :: y)). split; [exact EP|]. split; [exact HR|]. split; [exact HD|].
  intros k. pose proof (values_first axis s r x (w :: y) HA HB) as [F1 F2].
  apply (result_shape (length s) s a r (dim_from_end x r) to_end eq_refl Hax (dim_from_end x r) (val (length s) a) x (w :: y) (ux :: us) (pk_shape P) k
              HR ltac:(lia) (values_one axis s r x (w :: y) HA HB) HB).
Qed.
Lemma by_values_to_t {A B} (P : packer A) (value : B -> list nat -> Qc) run to_end newlen r s g :
  by_values P 0%Qc value run to_end newlen r s g -> by_values_t P value run to_end newlen r s (rmap to_tensor g).
Proof. apply by_columns_to_t. Qed.

Lemma resample_into_zeros {A V} (K : pusher A V) xw : forall freq,
  resample_vals_into K freq xw (repeat (p_zero K) (length freq)) = resample_vals K freq xw.
Proof.
  unfold resample_vals_into, resample_vals. induction freq as [|row freq IH]; [reflexivity|]. cbn [length repeat combine mapM fst snd]. now rewrite IH.
Qed.
(* an operand with two axes, both of the core *)
Lemma table_operand freq N s a : tensor_ok freq -> tndim freq = 2 -> 
  mapR core_axes [(freq, [(-2)%Z; (-1)%Z])] = Ok [(freq, [0; 1])] /\ Forall (loop_fits N s a) [(freq, [0; 1])] /\
  forall env i j, core_elem (freq, [0; 1]) (map env (Lv N a)) [i; j] = tget freq [i; j].
Proof.
  intros Hf Hn. destruct (aligned_operand freq [(-2)%Z; (-1)%Z] [0; 1] (Lv N a) (Dv s)) as (H1 & H2 & H3).
  - unfold aligns. rewrite Hn. cbn. split; [exact Hf|]. split; [repeat constructor; cbn; lia|]. split; [lia|]. split; [lia|tauto].
  - rewrite Hn. repeat constructor; lia.
  - apply NoDup_Lv.
  - cbn [mapR]. rewrite H1. split; [reflexivity|]. split; [constructor; [exact H2|constructor]|].
    intros env i j. rewrite H3 by reflexivity. unfold aligned_entry, entry. rewrite Hn. reflexivity.
Qed.

Theorem resample_vals_array : forall {A V} (K : pusher A V) ok P R, values_array K ok P R ->
  forall freq axis to_end r x w y s, values_ok P axis r x w y s -> tensor_ok freq -> tndim freq = 2 ->
  (shape_of freq 1 = dim_from_end x r ->
   by_values_t P (pk_unpack P) (fun env => of_opt EZeroDiv (resample_vals K (table freq) (samples_in R x w y r s env)))
     to_end (shape_of freq 0) r s (resample_vals_nd K P R freq axis to_end x w y)) /\
  (shape_of freq 1 <> dim_from_end x r -> resample_vals_nd K P R freq axis to_end x w y = Raise EValue).
Proof.
  intros A V K ok P R HV freq axis to_end r x w y s HO Hf Hn.
  destruct (values_prepared P axis to_end r x w y s HO) as (Hax & ux & us & EP & HR & HD & ES). set (a := length s - 1 - r) in *.
  unfold resample_vals_nd. rewrite EP. cbn [rbind]. cbv zeta.
  assert (S0 : shape_at freq 0 = Ok (shape_of freq 0)).
  { unfold shape_at. unfold tndim in Hn. rewrite (zread_ok _ _ 0) by lia. reflexivity. }
  assert (S1 : shape_at freq (-1) = Ok (shape_of freq 1)).
  { unfold shape_at. unfold tndim in Hn. change (-1)%Z with (- Z.of_nat 1)%Z. rewrite (zread_neg _ _ 0) by lia. now rewrite Hn. }
  rewrite S0, S1. cbn [rbind].
  rewrite ES, HD. cbn [rbind]. split; intros HC.
  2: { destruct (Nat.eqb_spec (shape_of freq 1) (dim_from_end x r)); [tauto|reflexivity]. }
  rewrite HC, Nat.eqb_refl. cbn [negb]. apply by_values_to_t. unfold by_values. fold a.
  destruct (table_operand freq (length s) s a Hf Hn) as (T1 & T2 & T3).
  apply (values_inout P s a r to_end Hax (dim_from_end x r) (dim_from_end x r) (val (length s) a) (x :: w :: y) (ux :: us) HR
     [(freq, [(-2)%Z; (-1)%Z])] [(freq, [0; 1])] T1 T2 0%Qc (pk_unpack P) (row_elem K P) (row_elem_val K P)).
  - intros env I. cbn [app map skipn]. unfold acc at 1. cbn [nth]. 
    assert (ET : map (fun i => map (fun j => core_elem (freq, [0; 1]) (map env (Lv (length s) a)) [i; j]) (seq 0 (dim_from_end x r))) (seq 0 (shape_of freq 0)) = table freq).
    { unfold table. rewrite HC. apply map_ext. intros i. apply map_ext. intros j. apply T3. }
    rewrite ET. unfold samples_in. rewrite <- (samples_read R to_end s a r x w y (ux :: us) Hax HR env I).
    rewrite <- resample_into_zeros.
    replace (length (table freq)) with (shape_of freq 0) by (unfold table; now rewrite map_length, seq_length). reflexivity.
  - intros env rows I. destruct (resample_vals K (table freq) _) as [q|] eqn:Eq; cbn; [|discriminate]. intros [= <-].
    unfold resample_vals in Eq. rewrite (mapM_length _ _ _ Eq). unfold table. now rewrite map_length, seq_length.
Qed.

(* the decay factor of each sample; the factors do not widen the shape of the values *)
Theorem rolling_exp_vals_array : forall {A V} (K : pusher A V) ok P R, values_array K ok P R ->
  forall alpha adjust min_periods zero axis to_end r x w y s, values_ok P axis r x w y s ->
  samples_agree x (w :: alpha :: y) axis r -> broadcasts (map tshape (shaping x (w :: alpha :: y))) s ->
  by_values P None (row_entry P zero)
    (fun env => of_opt EZeroDiv (rolling_exp_vals K adjust (match min_periods with None => 1%Z | Some k => Z.max 1 k end)
       (combine (map (fun i => read_value alpha r i (counted_from_end (length s) env)) (seq 0 (dim_from_end x r))) (samples_in R x w y r s env))))
    to_end (dim_from_end x r) r s (rolling_exp_vals_nd K P R alpha adjust min_periods zero axis to_end x w y).
Proof.
  intros A V K ok P R HV alpha adjust mp zero axis to_end r x w y s (Hy & HA & HB) HA2 HB2.
  pose proof (values_axis axis s r x (w :: y) HA HB) as Hax. pose proof (values_first axis s r x (w :: y) HA HB) as [F1 F2].
  destruct (prepare_values_ready axis to_end s r x (w :: alpha :: y) HA2 HB2) as (ux & us & EP & HR & HD).
  set (a := length s - 1 - r) in *. set (n := dim_from_end x r) in *.
  unfold rolling_exp_vals_nd, mom_ndim. rewrite <- Hy. change (S (S (S (length y)))) with (S (length (w :: alpha :: y))). rewrite EP. cbn [rbind].
  destruct (Forall2_uncons _ _ _ _ HR) as (ux' & us0 & E0 & Rx & HR1). injection E0 as <- <-.
  destruct (Forall2_uncons _ _ _ _ HR1) as (uw & us1 & -> & Rw & HR2). destruct (Forall2_uncons _ _ _ _ HR2) as (ua & uy & -> & Ra & Ry).
  cbv zeta. rewrite HD.
  assert (HRv : Forall2 (ready (length s) s a r n to_end n (val (length s) a)) (x :: w :: y) (ux :: uw :: uy)) by (constructor; [exact Rx|]; constructor; [exact Rw|exact Ry]).
  destruct (result_shape (length s) s a r n to_end eq_refl Hax n (val (length s) a) x (w :: y) (ux :: uw :: uy) (pk_shape P) n
              HRv ltac:(lia) (values_one axis s r x (w :: y) HA HB) HB) as [ES _].
  rewrite ES. cbn [rbind]. rewrite Hy. set (m := length (pk_shape P)).
  replace (length (map (Dn s a n) (OXv (length s) a to_end) ++ pk_shape P) - m) with (length s) by (rewrite (frame_length P s a r to_end Hax); unfold m; lia).
  set (mc := match mp with None => 1%Z | Some k => Z.max 1 k end).
  unfold by_values. fold a. fold m.
  match goal with |- by_columns _ _ ?run _ _ _ _ _ _ => set (go := run) end.
  apply (by_columns_rmap None None (row_entry P false) (row_entry P zero) go go to_end n n a (seq (length s) m) (frame s (pk_shape P)) (frame s (pk_shape P))).
  { intros g Hg. pose proof (eq_sym (frame_positions P s a r to_end Hax)) as EM. fold m in EM. rewrite EM at 2. apply zero_missing_columns; [exact (frame_NoDup P s a r Hax)| |exact Hg].
    exact (col_bound P _ _ _ _ _ (frame_axis P s a r Hax)). }
  { auto. }
  assert (HRa : Forall2 (ready (length s) s a r n to_end n (val (length s) a)) (alpha :: x :: w :: y) (ua :: ux :: uw :: uy)) by (constructor; [exact Ra|exact HRv]).
  apply (values_inout P s a r to_end Hax n n (val (length s) a) (alpha :: x :: w :: y) (ua :: ux :: uw :: uy) HRa
     [] [] eq_refl (Forall_nil _) None (row_entry P false) (row_elem_opt P) (row_elem_opt_val P)).
  - intros env I. unfold go, samples_in. rewrite <- (samples_read R to_end s a r x w y (ux :: uw :: uy) Hax HRv env I). cbn [app combine map fst snd skipn].
    do 3 f_equal. apply map_ext_in. intros i Hi. apply in_seq in Hi. unfold acc. cbn [nth].
    rewrite (ready_elem (length s) s a r n to_end eq_refl Hax n (val (length s) a) alpha ua env i Ra I) by lia.
    apply (elem_val (length s) s a r n eq_refl Hax). apply Ra.
  - intros env rows I. unfold go. destruct (rolling_exp_vals K adjust mc _) as [q|] eqn:Eq; cbn; [|discriminate]. intros [= <-].
    rewrite (rolling_exp_vals_length _ _ _ _ _ Eq), combine_length. unfold samples_in, samples_at. rewrite !map_length, !seq_length. unfold n. lia.
Qed.

Lemma read_value_ext t r i N e e' : tndim t <= N -> (forall b, b < N -> b <> N - 1 - r -> e b = e' b) ->
  r < N -> read_value t r i (counted_from_end N e) = read_value t r i (counted_from_end N e').
Proof.
  intros HN H Hr. unfold read_value. destruct (tndim t) as [|[|n]]; [reflexivity|reflexivity|]. f_equal. apply map_ext_in. intros k Hk.
  apply in_rev, in_seq in Hk. destruct (Nat.eqb_spec k r); [reflexivity|]. destruct (Nat.eqb _ 1); [reflexivity|]. unfold counted_from_end. apply H; lia.
Qed.
Lemma samples_in_ext {A V} (P : packer A) (R : reader V) axis r x w y s e e' : values_ok P axis r x w y s ->
  (forall b, b < length s -> b <> length s - 1 - r -> e b = e' b) -> samples_in R x w y r s e = samples_in R x w y r s e'.
Proof.
  intros (_ & HA & HB) H. pose proof (values_first axis s r x (w :: y) HA HB) as [F1 F2].
  assert (G : forall t i, In t (x :: w :: y) -> read_value t r i (counted_from_end (length s) e) = read_value t r i (counted_from_end (length s) e')).
  { intros t i Ht. apply read_value_ext; [exact (ft_ndim _ _ _ _ t (values_fit axis s r x (w :: y) HA HB t Ht))|exact H|lia]. }
  unfold samples_in, samples_at. apply map_ext. intros i. f_equal.
  - f_equal. apply map_ext_in. intros t Ht. apply G. cbn in *. tauto.
  - apply G. cbn. tauto.
Qed.
Lemma va_zero {A V} (K : pusher A V) ok P R : values_array K ok P R -> forall {X} (l : list X), rd_val R (map (fun _ => 0%Qc) l) = rd_val R [].
Proof. intros H X l. destruct H; cbn; destruct l as [|? [|? ?]]; reflexivity. Qed.

Theorem rolling_vals_array : forall {A V} (K : pusher A V) ok P R, values_array K ok P R ->
  forall window min_periods (center : bool) zero axis to_end r x w y s, values_ok P axis r x w y s -> (0 <= window)%Z ->
  (center = false \/ (0 < window)%Z ->
   by_values P None (row_entry P zero)
    (fun env => if center then rolling_vals_center K (rd_val R []) window min_periods (samples_in R x w y r s env)
                else of_opt EZeroDiv (rolling_vals K (rd_val R [], 0%Qc) (Z.to_nat window) (match min_periods with None => window | Some k => k end)
                                        (samples_in R x w y r s env)))
    to_end (dim_from_end x r) r s (rolling_vals_nd K P R window min_periods center zero axis to_end x w y)) /\
  (center = true -> window = 0%Z -> rolling_vals_nd K P R window min_periods center zero axis to_end x w y = Raise EValue).
Proof.
  intros A V K ok P R HV window mp center zero axis to_end r x w y s HO Hw.
  destruct (values_prepared P axis to_end r x w y s HO) as (Hax & ux & us & EP & HR & HD & ES). set (a := length s - 1 - r) in *.
  pose proof HO as (Hy & HA & HB). pose proof (values_first axis s r x (w :: y) HA HB) as [F1 F2]. pose proof (values_one axis s r x (w :: y) HA HB) as F3.
  set (n := dim_from_end x r) in *. set (mc := match mp with None => window | Some k => k end).
  unfold rolling_vals_nd. rewrite EP. cbn [rbind]. cbv zeta.
  pose proof (eq_sym (frame_positions P s a r to_end Hax)) as EM.
  assert (BD : forall b, In b (a :: seq (length s) (length (pk_shape P))) -> b < tndim (frame s (pk_shape P))) by exact (col_bound P _ _ _ _ _ (frame_axis P s a r Hax)).
  pose proof (frame_NoDup P s a r Hax) as ND.
  destruct center; [split|split; [|discriminate]].
  - intros [|Hw']; [discriminate|]. cbn [andb].
    assert (Hs : (0 <= - center_shift window)%Z).
    { unfold center_shift. pose proof (Z.div_mod (- window) 2 ltac:(lia)). pose proof (Z.mod_pos_bound (- window) 2 ltac:(lia)). lia. }
    destruct (Z.ltb_spec (- center_shift window) 0) as [|_]; [lia|]. set (pad := Z.to_nat (- center_shift window)).
    set (us' := map (fun t => pad_along (if Nat.eqb (tndim t) 1 then 0 else Z.to_nat (axis_out r to_end + Z.of_nat (tndim t))) pad t) (ux :: us)).
    assert (HR' : Forall2 (ready (length s) s a r n to_end (n + pad) (valp (length s) a n)) (x :: w :: y) us').
    { unfold us'. clear - HR Hax. induction HR as [|t u ts us1 H HF IH]; [constructor|]. cbn [map]. constructor; [|exact IH].
      exact (ready_pad (length s) s a r n to_end eq_refl Hax pad t u H). }
    assert (HD' : dim_at (nth 0 us' ux) (axis_out r to_end) = n + pad).
    { destruct (Forall2_uncons _ _ _ _ HR') as (u0 & us0 & -> & R0 & _). cbn [nth]. destruct R0 as [R1 R2].
      apply (view_dim (length s) s a r n to_end eq_refl Hax x u0 (n + pad) _ R1 ltac:(lia) F3 R2). }
    rewrite HD'.
    destruct (result_shape (length s) s a r n to_end eq_refl Hax (n + pad) (valp (length s) a n) x (w :: y) us' (pk_shape P) (n + pad)
              HR' ltac:(lia) F3 HB) as [ES' _].
    rewrite ES'. cbn [rbind]. rewrite (frame_length P s a r to_end Hax). unfold mom_ndim.
    replace (length s + length (pk_shape P) - length (pk_shape P)) with (length s) by lia.
    replace (axis_out r to_end - Z.of_nat (length (pk_shape P)) + Z.of_nat (length s + length (pk_shape P)))%Z with (axis_out r to_end + Z.of_nat (length s))%Z by lia.
    rewrite (frame_position P s a r to_end Hax). unfold by_values. fold a. fold n.
    set (run := fun env => of_opt EZeroDiv (rolling_vals K (rd_val R [], 0%Qc) (Z.to_nat window) mc (samples_in R x w y r s env ++ repeat (rd_val R [], 0%Qc) pad))).
    assert (ERun : forall env, rmap (skipn pad) (run env) = rolling_vals_center K (rd_val R []) window mp (samples_in R x w y r s env)).
    { intros env. unfold rolling_vals_center. fold mc. destruct (Z.ltb_spec (- center_shift window) 0) as [|_]; [lia|]. reflexivity. }
    apply (by_columns_rmap None None (row_entry P false) (row_entry P zero) (fun env => rmap (skipn pad) (run env)) _ to_end n n a _ (frame s (pk_shape P)) (frame s (pk_shape P))).
    { intros g Hg. rewrite EM at 2. apply zero_missing_columns; [exact ND|exact BD|].
      assert (X : by_columns None (row_entry P false) (fun env => rmap (skipn pad) (run env)) to_end n a _ (frame s (pk_shape P)) (Ok g)) by exact Hg.
      eapply by_columns_ext in X; [exact X|]. intros env _. apply ERun. }
    { intros env e I Hr. split; [exact I|]. now rewrite <- ERun. }
    apply (by_columns_rmap None None (row_entry P false) (row_entry P false) run (fun env => rmap (skipn pad) (run env)) to_end (n + pad) n a _ (frame s (pk_shape P)) (frame s (pk_shape P))).
    { intros g Hg. apply (slice_columns None (row_entry P false) run to_end n pad a _ (frame s (pk_shape P)) (frame s (pk_shape P)) g ND BD eq_refl).
      - reflexivity.
      - intros e e' He. unfold run. rewrite (samples_in_ext P R axis r x w y s e e' HO); [reflexivity|]. intros b Hb Nb. apply He.
        + rewrite (frame_ndim P s). lia.
        + intros [E|E]; [subst; tauto|]. apply in_seq in E. lia.
      - exact Hg. }
    { intros env e I Hr. split; [exact I|]. now rewrite Hr. }
    apply (values_inout P s a r to_end Hax n (n + pad) (valp (length s) a n) (x :: w :: y) us' HR'
       [] [] eq_refl (Forall_nil _) None (row_entry P false) (row_elem_opt P) (row_elem_opt_val P)).
    + intros env I. unfold run. cbn [app]. do 3 f_equal.
      pose proof (ready_samples (length s) s a r n to_end eq_refl Hax R (n + pad) (valp (length s) a n) x w y us' env HR' I) as X.
      etransitivity; [exact X|]. rewrite seq_app, map_app. cbn [plus].
      assert (FT : forall t, In t (x :: w :: y) -> fits (length s) s r n t) by (exact (values_fit axis s r x (w :: y) HA HB)).
      assert (G : forall t i, In t (x :: w :: y) -> elem (length s) a (n + pad) (valp (length s) a n) env t i
                 = if Nat.ltb i n then read_value t r i (counted_from_end (length s) env) else 0%Qc).
      { intros t i Ht. apply (elem_pad (length s) s a r n eq_refl Hax pad t env i (FT t Ht)). }
      f_equal.
      * unfold samples_in, samples_at. fold n. apply map_ext_in. intros i Hi. apply in_seq in Hi.
        assert (Li : Nat.ltb i n = true) by (apply Nat.ltb_lt; lia). f_equal.
        -- f_equal. apply map_ext_in. intros t Ht. rewrite G by (cbn in *; tauto). now rewrite Li.
        -- rewrite G by (cbn; tauto). now rewrite Li.
      * assert (Q : forall i, n <= i -> (rd_val R (map (fun t => elem (length s) a (n + pad) (valp (length s) a n) env t i) (x :: y)),
                         elem (length s) a (n + pad) (valp (length s) a n) env w i) = (rd_val R [], 0%Qc)).
        { intros i Hi. assert (Li : Nat.ltb i n = false) by (apply Nat.ltb_ge; exact Hi). f_equal.
          - rewrite <- (va_zero K ok P R HV (x :: y)). f_equal. apply map_ext_in. intros t Ht. rewrite G by (cbn in *; tauto). now rewrite Li.
          - rewrite G by (cbn; tauto). now rewrite Li. }
        etransitivity; [apply map_ext_in; intros i Hi; apply in_seq in Hi; apply Q; lia|].
        clear. generalize n. induction pad as [|p IH]; intros k; [reflexivity|]. cbn [seq map repeat]. now rewrite IH.
    + intros env rows I. unfold run. destruct (rolling_vals K _ _ mc _) as [q|] eqn:Eq; cbn; [|discriminate]. intros [= <-].
      rewrite (rolling_vals_length _ _ _ _ _ _ Eq), app_length, repeat_length. unfold samples_in, samples_at. rewrite map_length, seq_length. reflexivity.
  - intros _ ->. reflexivity.
  - intros _. cbn [andb]. rewrite map_id. cbn [nth]. rewrite HD, ES. cbn [rbind]. rewrite (frame_length P s a r to_end Hax). unfold mom_ndim.
    replace (length s + length (pk_shape P) - length (pk_shape P)) with (length s) by lia. unfold by_values. fold a. fold n.
    match goal with |- by_columns _ _ ?run _ _ _ _ _ _ => set (go := run) end.
    apply (by_columns_rmap None None (row_entry P false) (row_entry P zero) go go to_end n n a _ (frame s (pk_shape P)) (frame s (pk_shape P))).
    { intros g Hg. rewrite EM at 2. apply zero_missing_columns; [exact ND|exact BD|exact Hg]. }
    { auto. }
    unfold rmap at 1. rewrite rbind_id.
    apply (values_inout P s a r to_end Hax n n (val (length s) a) (x :: w :: y) (ux :: us) HR
       [] [] eq_refl (Forall_nil _) None (row_entry P false) (row_elem_opt P) (row_elem_opt_val P)).
    + intros env I. unfold go, samples_in. rewrite <- (samples_read R to_end s a r x w y (ux :: us) Hax HR env I). reflexivity.
    + intros env rows I. unfold go. fold mc. destruct (rolling_vals K _ _ mc _) as [q|] eqn:Eq; cbn; [|discriminate]. intros [= <-].
      rewrite (rolling_vals_length _ _ _ _ _ _ Eq). unfold samples_in, samples_at. now rewrite map_length, seq_length.
Qed.

(* the loop of the values alone has the common shape *)
Lemma values_loops axis to_end s r x others us pins : samples_agree x others axis r -> broadcasts (map tshape (shaping x others)) s ->
  let N := length s in let a := N - 1 - r in let n := dim_from_end x r in
  Forall2 (ready N s a r n to_end n (val N a)) (x :: others) us -> Forall (loop_fits N s a) pins ->
  broadcast_shapes (map loop_shape (pins ++ map (fun p => opnd N a r to_end (fst p) (snd p)) (combine (x :: others) us))) = Ok (map (Dv s) (Lv N a)).
Proof.
  intros HA HB N a n HR HL. pose proof (values_axis axis s r x others HA HB) as Hax. fold N a in Hax.
  pose proof (values_first axis s r x others HA HB) as [F1 F2]. fold N in F2.
  assert (HF := values_fit axis s r x others HA HB). fold N n in HF.
  assert (X : exists es : list (list nat * (nat -> nat)), map loop_shape pins = map (fun e => map (snd e) (fst e)) es /\
      forall e, In e es -> (exists pre, Lv N a = pre ++ fst e) /\ forall j, In j (fst e) -> snd e j = Dv s j \/ snd e j = 1).
  { clear - HL. induction HL as [|g l (e & E1 & E2) _ (es & G1 & G2)]; [exists []; split; [reflexivity|intros e []]|].
    exists (e :: es). cbn [map]. split; [now rewrite E1, G1|]. intros e' [<-|He]; [exact E2|now apply G2]. }
  destruct X as (es & E1 & E2). rewrite map_app, E1.
  set (fs := map (fun t => (except_nat (own N a to_end t) [a], len N a t n)) (x :: others)).
  assert (E3 : map loop_shape (map (fun p => opnd N a r to_end (fst p) (snd p)) (combine (x :: others) us)) = map (fun e => map (snd e) (fst e)) fs).
  { unfold fs. clear - HR Hax. induction HR as [|t u ts us1 H HR IH]; [reflexivity|]. cbn [combine map fst snd]. rewrite IH. f_equal.
    exact (operand_loop_shape _ _ _ _ _ _ _ (ready_operand N s a r n to_end eq_refl Hax n (val N a) t u H)). }
  rewrite E3, <- map_app. apply broadcast_shapes_ok.
  assert (SH : forall t, In t (shaping x others) -> In t (x :: others)).
  { intros t [<-|Ht]; [now left|]. apply filter_In in Ht. right. tauto. }
  assert (OP : forall t, In t (x :: others) -> (exists pre, Lv N a = pre ++ except_nat (own N a to_end t) [a]) /\
     forall j, In j (except_nat (own N a to_end t) [a]) -> len N a t n j = Dv s j \/ len N a t n j = 1).
  { intros t Ht. specialize (HF t Ht). split.
    - rewrite own_except. destruct (Nat.leb_spec (tndim t) 1); [exists (Lv N a); now rewrite app_nil_r|].
      apply except_seq_suffix; [apply (ft_ndim _ _ _ _ t HF)|]. pose proof (ft_ndim _ _ _ _ t HF). destruct (ft_samp _ _ _ _ t HF) as [?|[[? ?]|(? & ? & ?)]]; lia.
    - intros j Hj. apply except_In in Hj. destruct Hj as [H1 H2]. apply (own_lengths N s a r n to_end eq_refl Hax t n j HF H1). intros ->. apply H2. now left. }
  apply (broadcasts_named (Lv N a) (Dv s) (es ++ fs)).
  - intros e He. apply in_app_or in He. destruct He as [He|He]; [now apply E2|]. apply in_map_iff in He. destruct He as (t & <- & Ht). now apply OP.
  - intros e j He. apply in_app_or in He. destruct He as [He|He]; [now apply E2|]. apply in_map_iff in He. destruct He as (t & <- & Ht). now apply OP.
  - destruct HB as (B1 & B2 & _). destruct B2 as [E|(q & Hq & Eq)]; [unfold N in F2; rewrite E in F2; cbn in F2; lia|].
    apply in_map_iff in Hq. destruct Hq as (t & <- & Ht). change (length (tshape t)) with (tndim t) in Eq. fold N in Eq.
    destruct (Nat.eq_dec N 1) as [E|E].
    + left. apply length_zero_iff_nil. rewrite (Lv_length N s a r eq_refl Hax). lia.
    + right. exists (except_nat (own N a to_end t) [a], len N a t n). split.
      * apply in_or_app. right. unfold fs. apply (in_map (fun t => (except_nat (own N a to_end t) [a], len N a t n))). now apply SH.
      * cbn [fst]. rewrite own_except. destruct (Nat.leb_spec (tndim t) 1); [lia|]. rewrite Eq, Nat.sub_diag. reflexivity.
  - intros j Hj. apply (Lv_In N s a r eq_refl Hax) in Hj. destruct Hj as [Hj Nj]. rewrite (Dv_from_end N s a r eq_refl Hax j Hj).
    destruct HB as (B1 & _ & B3). destruct (B3 (N - 1 - j) ltac:(lia)) as [_ [E|(q & Hq & Eq)]]; [now left|].
    apply in_map_iff in Hq. destruct Hq as (t & <- & Ht).
    destruct (Nat.lt_ge_cases (N - 1 - j) (tndim t)) as [C|C].
    + right. exists (except_nat (own N a to_end t) [a], len N a t n). split; [|split].
      * apply in_or_app. right. unfold fs. apply (in_map (fun t => (except_nat (own N a to_end t) [a], len N a t n))). now apply SH.
      * cbn [fst]. rewrite own_except. assert (HT := HF t (SH t Ht)). pose proof (ft_ndim _ _ _ _ t HT). destruct (Nat.leb_spec (tndim t) 1).
        -- exfalso. assert (j = N - 1) by lia. assert (a <> N - 1) by lia. destruct Ht as [<-|Ht]; [lia|]. apply filter_In in Ht.
           destruct Ht as [_ Ht]. apply Nat.ltb_lt in Ht. lia.
        -- apply except_In. split; [apply in_seq; lia|]. intros [Q|[]]; congruence.
      * cbn [snd]. unfold len. destruct (Nat.eqb_spec j a); [tauto|]. exact Eq.
    + left. rewrite <- Eq. apply from_end_out. exact C.
  - apply NoDup_Lv.
Qed.

(* data_reduced given: its last axes are the moments, the others line up with
   the last axes of the values *)
Theorem jackknife_vals_given_array : forall {A V} (K : pusher A V) ok P R, values_array K ok P R ->
  forall red axis to_end r x w y s, values_ok P axis r x w y s ->
  let m := length (pk_shape P) in
  let C := seq (tndim red - m) m in
  let L := except_nat (seq 0 (length s)) [length s - 1 - r] in
  m <= tndim red -> map (shape_of red) C = pk_shape P -> aligns red C L (fun j => nth j s 0) ->
  by_values_t P (pk_unpack P)
    (fun env => of_opt EZeroDiv (jackknife_vals_from K (pk_pack P (aligned_entry red C L env)) (samples_in R x w y r s env)))
    to_end (dim_from_end x r) r s (jackknife_vals_nd K P R (Some red) axis to_end x w y).
Proof.
  intros A V K ok P R HV red axis to_end r x w y s HO m C L Hm HC HL. pose proof (ma_packer _ _ _ (va_array _ _ _ _ HV)) as HP.
  destruct (values_prepared P axis to_end r x w y s HO) as (Hax & ux & us & EP & HR & HD & ES).
  pose proof HO as (Hy & HA & HB).
  unfold jackknife_vals_nd. cbn [rbind]. rewrite EP. cbn [rbind]. cbv zeta. rewrite HD. unfold mom_ndim. fold m.
  assert (SK : skipn (tndim red - m) (tshape red) = pk_shape P).
  { rewrite <- HC. apply (nth_ext _ _ 0 0).
    - unfold C. rewrite skipn_length, map_length, seq_length. unfold tndim in *. lia.
    - intros k Hk. rewrite skipn_length in Hk. change (length (tshape red)) with (tndim red) in Hk. unfold C.
      rewrite nth_skipn', (nth_map_in _ _ _ _ 0) by (rewrite seq_length; lia). rewrite seq_nth by lia. reflexivity. }
  rewrite SK. destruct (list_eq_dec Nat.eq_dec (pk_shape P) (pk_shape P)) as [_|Q]; [|congruence]. cbn [negb]. apply by_values_to_t. unfold by_values.
  set (a := length s - 1 - r) in *. set (n := dim_from_end x r) in *.
  assert (AL : Forall2 (is_axis (tndim red)) (axes_last m) C) by (apply axes_last_positions; [exact Hm|reflexivity]).
  destruct (aligned_operand red (axes_last m) C (Lv (length s) a) (Dv s) HL AL (NoDup_Lv _ _)) as (A1 & A2 & A3).
  assert (P1 : mapR core_axes [(red, axes_last m)] = Ok [(red, C)]) by (cbn [mapR]; now rewrite A1).
  assert (P2 : Forall (loop_fits (length s) s a) [(red, C)]) by (constructor; [exact A2|constructor]).
  apply (values_gufunc P s a r to_end Hax n n (val (length s) a) (x :: w :: y) (ux :: us) HR
     [(red, axes_last m)] [(red, C)] P1 P2 0%Qc (pk_unpack P) (row_elem K P) (row_elem_val K P)).
  - exact (values_loops axis to_end s r x (w :: y) (ux :: us) [(red, C)] HA HB HR P2).
  - intros env I. cbn [app map skipn]. unfold acc. cbn [nth]. unfold samples_in.
    rewrite <- (samples_read R to_end s a r x w y (ux :: us) Hax HR env I). do 3 f_equal.
    apply (proj1 HP). intros c Hc. apply valid_length in Hc. apply A3. rewrite Hc. unfold C. now rewrite seq_length.
  - intros env rows I. destruct (jackknife_vals_from K _ _) as [q|] eqn:Eq; cbn; [|discriminate]. intros [= <-].
    unfold jackknife_vals_from in Eq. rewrite (mapM_length _ _ _ Eq). unfold samples_in, samples_at. now rewrite map_length, seq_length.
Qed.

Lemma reduce_vals_shape {A V} (K : pusher A V) ok P : moment_array K ok P -> forall xw o, reduce_vals K xw = Some o -> ok o.
Proof.
  intros HM xw o. destruct (kernel_laws K ok (ma_kernel _ _ _ HM)) as (I & L & E).
  assert (G : forall l q, l_wf L q -> foldM (fun o s => p_push_val K (fst s) (snd s) o) l q = Some o -> l_wf L o).
  { induction l as [|[v u] l IH]; cbn [foldM fst snd]; intros q Hq; [now intros [= <-]|]. rewrite (l_val _ _ L).
    pose proof (l_point_wf _ _ L v u) as Wp. pose proof (l_point_wt _ _ L v u) as Tp.
    destruct (Qc_eq_dec u 0) as [Z|Z]; [rewrite (l_push_zero _ _ L) by congruence; now apply IH|].
    destruct (Qc_eq_dec (p_wt K q + u)%Qc 0) as [Z'|Z'].
    - rewrite (l_push_none _ _ L) by (rewrite ?Tp; assumption). discriminate.
    - destruct (l_push_some _ _ L (l_point L v u) q Wp Hq) as (q' & Eq & Hq' & _); [now rewrite Tp|now rewrite Tp|]. rewrite Eq. cbn. now apply IH. }
  intros H. apply E. eapply G; [|exact H]. apply (l_wf_zero _ _ L).
Qed.

Theorem jackknife_vals_array : forall {A V} (K : pusher A V) ok P R, values_array K ok P R ->
  forall axis to_end r x w y s, values_ok P axis r x w y s ->
  by_values_t P (pk_unpack P) (fun env => of_opt EZeroDiv (jackknife_vals K (samples_in R x w y r s env)))
    to_end (dim_from_end x r) r s (jackknife_vals_nd K P R None axis to_end x w y).
Proof.
  intros A V K ok P R HV axis to_end r x w y s HO. pose proof (va_array _ _ _ _ HV) as HM. pose proof (ma_packer _ _ _ HM) as HP.
  pose proof HO as (Hy & HA & HB). pose proof (values_axis axis s r x (w :: y) HA HB) as Hax.
  pose proof (reduce_vals_array K ok P R HV axis r x w y s HO) as HR. cbv zeta in HR.
  set (a := length s - 1 - r) in *. set (L := except_nat (seq 0 (length s)) [a]) in *. set (m := length (pk_shape P)) in *.
  set (M := seq (length s) m) in *. set (shape := shape_of (frame s (pk_shape P))) in *.
  assert (LL : length L = length s - 1) by exact (Lv_length (length s) s a r eq_refl Hax).
  assert (LI : forall j, In j L <-> j < length s /\ j <> a) by exact (Lv_In (length s) s a r eq_refl Hax).
  assert (NM : NoDup M) by apply seq_NoDup.
  assert (SM : map shape M = pk_shape P) by exact (frame_moments P s a r Hax).
  unfold jackknife_vals_nd at 1.
  destruct (reduce_vals_nd K P R axis x w y) as [out|e]; cbn [rbind].
  - destruct HR as (H1 & H2 & H3).
    assert (LM : length M = m) by (unfold M; apply seq_length).
    assert (En : tndim out = length L + m) by (unfold tndim; now rewrite H2, map_length, app_length, LM).
    set (C := seq (tndim out - m) m).
    assert (EC : C = seq (length L) m) by (unfold C; f_equal; lia).
    assert (EE : except_nat (seq 0 (tndim out)) C = seq 0 (length L)).
    { rewrite EC, En, seq_app, except_app. cbn [plus]. rewrite (except_all _ (seq (length L) m)), app_nil_r by auto. apply except_none.
      intros j Hj Hj'. apply in_seq in Hj, Hj'. lia. }
    assert (EA : forall p, p < length L -> aligned_with out C L p = nth p L 0).
    { intros p Hp. unfold aligned_with. rewrite EE, seq_length, Nat.sub_diag. cbn [plus]. f_equal. rewrite index_of_seq by lia. lia. }
    assert (SH : forall p, p < length L -> shape_of out p = nth (nth p L 0) s 0).
    { intros p Hp. unfold shape_of. rewrite H2, (nth_map_in _ _ _ _ 0), app_nth1 by (rewrite ?app_length; lia).
      apply (frame_shape P s). apply LI, nth_In. exact Hp. }
    assert (SC : map (shape_of out) C = pk_shape P).
    { rewrite <- SM. apply (nth_ext _ _ 0 0); [rewrite !map_length; unfold C; rewrite seq_length; now rewrite LM|]. intros k Hk.
      rewrite map_length in Hk. unfold C in Hk. rewrite seq_length in Hk.
      rewrite !(nth_map_in _ _ _ _ 0) by (unfold C; rewrite ?seq_length, ?LM; exact Hk). unfold C. rewrite seq_nth by exact Hk.
      unfold shape_of. rewrite H2, (nth_map_in _ _ _ _ 0) by (rewrite app_length, LM; lia). rewrite app_nth2 by lia. do 2 f_equal. lia. }
    pose proof (jackknife_vals_given_array K ok P R HV out axis to_end r x w y s HO) as G. cbv zeta in G. fold m in G. fold C in G. fold a in G. fold L in G.
    assert (AL : aligns out C L (fun j => nth j s 0)).
    { unfold aligns. rewrite EE, seq_length. split; [exact H1|]. split; [apply seq_NoDup|].
      split; [unfold C; intros c Hc; apply in_seq in Hc; lia|]. split; [lia|]. intros p Hp. apply in_seq in Hp. left. rewrite EA by lia. apply SH. lia. }
    specialize (G ltac:(lia) SC AL). unfold jackknife_vals_nd in G. cbn [rbind] in G. unfold by_values_t, by_values in G |- *.
    eapply by_columns_ext; [|exact G]. intros env I. cbv beta. fold a in I. fold m in I. fold M in I. fold shape in I.
    pose proof (frame_loop P s a r Hax) as FL. fold m in FL. fold M in FL. rewrite FL in I. change (Lv (length s) a) with L in I.
    assert (EN : forall c, valid (pk_shape P) c -> exists o, reduce_vals K (samples_in R x w y r s env) = Some o /\ aligned_entry out C L env c = pk_unpack P o c).
    { intros c Hc. rewrite <- SM in Hc. pose proof (valid_length _ _ Hc) as Lc. rewrite map_length in Lc.
      assert (NLM : forall j, In j L -> ~ In j M) by (intros j Hj Hj'; apply LI in Hj; apply in_seq in Hj'; lia).
      destruct (H3 (bind M c env)) as (o & Eo & Eq).
      - intros j Hj. apply in_app_or in Hj. destruct Hj as [Hj|Hj]; [rewrite bind_out by (now apply NLM); now apply I|].
        rewrite bind_in by assumption. now apply valid_nth_index.
      - exists o. rewrite <- Eo. split.
        + f_equal. apply (samples_in_ext P R axis r x w y s _ _ HO). intros b Hb Nb. rewrite bind_out; [reflexivity|]. intros Hj'. apply in_seq in Hj'. lia.
        + rewrite map_bind in Eq by assumption. rewrite <- Eq. unfold aligned_entry, entry. f_equal. rewrite En, seq_app, !map_app. cbn [plus]. f_equal.
          * transitivity (map env L).
            2: { apply map_ext_in. intros j Hj. rewrite bind_out; [reflexivity|now apply NLM]. }
            transitivity (map env (map (fun p => nth p L 0) (seq 0 (length L)))); [|now rewrite (map_nth_seq L 0)].
            rewrite map_map. apply map_ext_in. intros p Hp. apply in_seq in Hp.
            rewrite bind_out by (rewrite EC, in_seq; lia). rewrite SH, EA by lia.
            assert (Hn : In (nth p L 0) L) by (apply nth_In; lia). assert (X := I (nth p L 0) Hn).
            assert (Y : shape (nth p L 0) = nth (nth p L 0) s 0) by (apply (frame_shape P s), LI; exact Hn).
            destruct (Nat.eqb_spec (nth (nth p L 0) s 0) 1) as [E|]; [|reflexivity]. lia.
          * rewrite (map_bind M) by assumption. rewrite <- EC. apply map_bind; [apply seq_NoDup|]. unfold C. rewrite seq_length. congruence. }
    destruct (EN (repeat 0 m)) as (o & Eo & _); [apply valid_zeros, HP|].
    unfold jackknife_vals. rewrite Eo. cbn [obind]. do 2 f_equal.
    rewrite <- (ma_pack_unpack _ _ _ HM o) by exact (reduce_vals_shape K ok P HM _ _ Eo).
    apply (proj1 HP). intros c Hc. destruct (EN c Hc) as (o' & Eo' & ->). congruence.
  - destruct HR as (-> & env & I & E). unfold by_values_t, by_values, by_columns. exists env. split.
    + pose proof (frame_loop P s a r Hax) as FL. fold a. fold m in FL |- *. rewrite FL. exact I.
    + unfold jackknife_vals. now rewrite E.
Qed.

(* ---- arguments that do not fit ----------------------------------------------------- *)

Definition argument_error {T} (r : res T) : Prop := r = Raise EValue \/ r = Raise EIndex.
(* one further array fits the samples *)
Definition fits_samples (n r : nat) (t : tensor) : Prop :=
  tndim t = 0 \/ tndim t = 1 /\ dim_from_end t 0 = n \/ 2 <= tndim t /\ r < tndim t /\ dim_from_end t r = n.

Lemma secondary_misfit r n to_end t : tensor_ok t -> ~ fits_samples n r t -> argument_error (prepare_secondary (-1 - Z.of_nat r) n to_end t).
Proof.
  intros Ht H. unfold prepare_secondary. destruct (Nat.eqb_spec (tndim t) 0) as [E|E]; [exfalso; apply H; now left|].
  destruct (Nat.eqb_spec (tndim t) 1) as [E1|E1]; cbn [rbind fst snd].
  - unfold shape_at. change (-1)%Z with (- Z.of_nat 1)%Z. rewrite (zread_neg _ _ 0) by (change (length (tshape t)) with (tndim t); lia). cbn [rbind].
    destruct (Nat.eqb_spec (nth (length (tshape t) - 1) (tshape t) 0) n) as [X|X]; [|now left]. exfalso. apply H. right. left. split; [exact E1|].
    unfold dim_from_end. rewrite from_end_nth by (change (length (tshape t)) with (tndim t); lia). rewrite <- X. f_equal. lia.
  - destruct (Nat.le_gt_cases (tndim t) r) as [Hr|Hr].
    + destruct (to_end && negb (-1 - Z.of_nat r =? -1)%Z)%bool.
      * left. unfold np_moveaxis, moveaxis_order.
        destruct (normalize_axis_tuple (Some (map AInt [(-1 - Z.of_nat r)%Z])) (tndim t) None false) as [l|e] eqn:En; cbn [rbind].
        -- apply tuple_ints in En. destruct En as [En _]. exfalso. apply Forall2_uncons in En. destruct En as (i & l' & _ & [X1 X2] & _). lia.
        -- now rewrite (normalize_tuple_err _ _ _ _ _ En).
      * right. cbn [rbind fst snd]. unfold shape_at. rewrite zread_out; [reflexivity|]. change (length (tshape t)) with (tndim t). lia.
    + set (n1 := dim_from_end t r). assert (Hn : n1 <> n). { intros X. apply H. right. right. split; [lia|]. split; assumption. }
      assert (Hax : (length (tshape t) - 1 - r) + r + 1 = length (tshape t)) by (change (length (tshape t)) with (tndim t); lia).
      assert (F : fits (length (tshape t)) (tshape t) r n1 t).
      { constructor; [exact Ht|apply Nat.le_refl| |].
        - right. right. split; [lia|]. split; [exact Hr|reflexivity].
        - intros _ k _ _. now left. }
      destruct (secondary_view (length (tshape t)) (tshape t) _ r n1 to_end eq_refl Hax t F) as (u & Eu & _).
      unfold prepare_secondary in Eu. destruct (Nat.eqb_spec (tndim t) 0) as [|_]; [lia|]. destruct (Nat.eqb_spec (tndim t) 1) as [|_]; [lia|].
      destruct (if (to_end && negb (-1 - Z.of_nat r =? -1)%Z)%bool then _ else _) as [q|e]; cbn [rbind] in *; [|discriminate].
      destruct (shape_at (fst q) (snd q)) as [k|e]; cbn [rbind] in *; [|discriminate].
      destruct (Nat.eqb_spec k n1) as [Ek|]; [|discriminate]. destruct (Nat.eqb_spec k n); [congruence|]. now left.
Qed.
Lemma secondary_err r n to_end t e : tensor_ok t -> prepare_secondary (-1 - Z.of_nat r) n to_end t = Raise e -> e = EValue \/ e = EIndex.
Proof.
  intros Ht H.
  assert (D : fits_samples n r t \/ ~ fits_samples n r t).
  { unfold fits_samples. destruct (Nat.eq_dec (tndim t) 0); [tauto|]. destruct (Nat.eq_dec (tndim t) 1), (Nat.eq_dec (dim_from_end t 0) n), (Nat.eq_dec (dim_from_end t r) n), (le_lt_dec 2 (tndim t)), (lt_dec r (tndim t)); try (left; tauto); right; lia. }
  destruct D as [D|D].
  - exfalso. set (N := max (tndim t) (S r)).
    set (Sh := repeat 0 (N - tndim t) ++ tshape t).
    assert (LS : length Sh = N). { unfold Sh. rewrite app_length, repeat_length. change (length (tshape t)) with (tndim t). unfold N. lia. }
    assert (F : fits N Sh r n t).
    { constructor; [exact Ht|unfold N; lia|exact D|]. intros _ k Hk _. left. rewrite !from_end_nth by (rewrite ?LS; change (length (tshape t)) with (tndim t); unfold N; lia).
      unfold Sh at 2. rewrite app_nth2; rewrite repeat_length.
      - f_equal. rewrite LS. change (length (tshape t)) with (tndim t). unfold N. lia.
      - rewrite LS. unfold N. lia. }
    destruct (secondary_view N Sh (N - 1 - r) r n to_end LS ltac:(unfold N; lia) t F) as (u & Eu & _). congruence.
  - destruct (secondary_misfit r n to_end t Ht D) as [X|X]; rewrite H in X; injection X; auto.
Qed.
Lemma prepare_values_misfit k axis to_end x others : Forall tensor_ok (x :: others) ->
  ~ (S (length others) = k /\ exists r, samples_agree x others axis r) -> forall T (f : _ -> res T),
  argument_error (rbind (prepare_values k axis to_end x others) f).
Proof.
  intros HT H T f. assert (G : argument_error (prepare_values k axis to_end x others)); [|destruct G as [-> | ->]; [now left|now right]].
  unfold prepare_values. destruct (Nat.eqb_spec (S (length others)) k) as [E|E]; cbn [negb]; [|now left].
  destruct (normalize_axis_index axis (tndim x) None) as [p|e] eqn:En; cbn [rbind].
  2: { rewrite (normalize_index_err _ _ _ _ En). now left. }
  apply normalize_index_ok in En. assert (Hp := names_axis_lt _ _ _ _ En). set (r := tndim x - 1 - p).
  assert (EZ : positive_to_negative_index (Z.of_nat p) (Z.of_nat (tndim x)) = (-1 - Z.of_nat r)%Z).
  { unfold positive_to_negative_index, r. destruct (Z.ltb_spec (Z.of_nat p) 0); lia. }
  rewrite EZ. cbv zeta.
  assert (EP : nth p (tshape x) 0 = dim_from_end x r).
  { unfold dim_from_end. rewrite from_end_nth by (change (length (tshape x)) with (tndim x); unfold r; lia). f_equal. change (length (tshape x)) with (tndim x). unfold r. lia. }
  rewrite EP.
  apply Forall_cons_iff in HT. destruct HT as [Hx HT].
  match goal with |- argument_error (rbind ?m _) => destruct m as [ux|e] eqn:Ex end; cbn [rbind].
  2: { destruct (to_end && negb (-1 - Z.of_nat r =? -1)%Z)%bool; [|discriminate]. unfold np_moveaxis, moveaxis_order in Ex.
       destruct (normalize_axis_tuple (Some (map AInt [(-1 - Z.of_nat r)%Z])) (tndim x) None false) as [l|e'] eqn:Et; cbn [rbind] in Ex.
       - destruct (normalize_axis_tuple (Some (map AInt [(-1)%Z])) (tndim x) None false) as [l'|e'] eqn:Eu; cbn [rbind] in Ex.
         + exfalso. revert Ex. clear - Et Eu. intros Ex. apply tuple_ints in Et, Eu. destruct Et as [Et _], Eu as [Eu _].
           inversion Et as [|? i ? l1 _ X]; subst. inversion X; subst. inversion Eu as [|? j ? l2 _ Y]; subst. inversion Y; subst. discriminate.
         + left. rewrite (normalize_tuple_err _ _ _ _ _ Eu) in Ex. congruence.
       - left. rewrite (normalize_tuple_err _ _ _ _ _ Et) in Ex. congruence. }
  assert (D : exists t, In t others /\ ~ fits_samples (dim_from_end x r) r t).
  { destruct (Forall_Exists_dec (fits_samples (dim_from_end x r) r)) with (l := others) as [A|A].
    - intros t. unfold fits_samples. destruct (Nat.eq_dec (tndim t) 0); [left; tauto|]. destruct (Nat.eq_dec (tndim t) 1), (Nat.eq_dec (dim_from_end t 0) (dim_from_end x r)), (Nat.eq_dec (dim_from_end t r) (dim_from_end x r)), (le_lt_dec 2 (tndim t)), (lt_dec r (tndim t)); try (left; tauto); right; lia.
    - exfalso. apply H. split; [exact E|]. exists r. split; [exact Hx|]. split; [exists p; split; [exact En|unfold r; lia]|].
      intros t Ht. rewrite Forall_forall in A, HT. split; [now apply HT|]. exact (A t Ht).
    - apply Exists_exists in A. exact A. }
  destruct D as (t & Ht & Hf). rewrite Forall_forall in HT.
  destruct (mapR (prepare_secondary (-1 - Z.of_nat r) (dim_from_end x r) to_end) others) as [us|e] eqn:Em; cbn [rbind].
  - exfalso. apply mapR_Forall2 in Em. destruct (secondary_misfit r (dim_from_end x r) to_end t (HT t Ht) Hf) as [X|X];
      clear - Em Ht X; (induction Em as [|u v l l' Hu HF IH]; [destruct Ht|]; destruct Ht as [->|Ht]; [congruence|auto]).
  - apply mapR_raise in Em. destruct Em as (u & Hu & Eu). destruct (secondary_err _ _ _ _ _ (HT u Hu) Eu) as [-> | ->]; [now left|now right].
Qed.

(* wrong number of arrays, an axis the values do not have, or a further array
   whose samples do not match: an error, never an array *)
Theorem values_arguments_checked : forall {A V} (K : pusher A V) (P : packer A) (R : reader V) axis to_end x w y,
  Forall tensor_ok (x :: w :: y) ->
  ~ (S (length y) = length (pk_shape P) /\ exists r, samples_agree x (w :: y) axis r) ->
  argument_error (reduce_vals_nd K P R axis x w y) /\
  (forall freq, argument_error (resample_vals_nd K P R freq axis to_end x w y)) /\
  (forall red, argument_error (jackknife_vals_nd K P R red axis to_end x w y)) /\
  (forall window mp center zero, argument_error (rolling_vals_nd K P R window mp center zero axis to_end x w y)) /\
  (forall alpha adjust mp zero, tensor_ok alpha -> argument_error (rolling_exp_vals_nd K P R alpha adjust mp zero axis to_end x w y)).
Proof.
  intros A V K P R axis to_end x w y HT H.
  assert (H0 : ~ (S (length (w :: y)) = S (length (pk_shape P)) /\ exists r, samples_agree x (w :: y) axis r)).
  { intros [X Y]. apply H. split; [cbn in X; lia|exact Y]. }
  assert (X := fun te => prepare_values_misfit (S (mom_ndim P)) axis te x (w :: y) HT H0).
  split; [apply X|]. split; [intros; apply X|]. split.
  { intros red. unfold jackknife_vals_nd. destruct red as [red|]; [cbn [rbind]; apply X|].
    assert (Y : argument_error (reduce_vals_nd K P R axis x w y)) by apply X. destruct Y as [-> | ->]; [now left|now right]. }
  split; [intros; apply X|]. intros alpha adjust mp zero Ha.
  apply (prepare_values_misfit (S (S (mom_ndim P))) axis to_end x (w :: alpha :: y)).
  - apply Forall_cons_iff in HT. destruct HT as [H1 HT]. apply Forall_cons_iff in HT. destruct HT as [H2 HT]. now repeat constructor.
  - intros [E (r & S1 & S2 & S3)]. apply H. split; [cbn in E; unfold mom_ndim in E; lia|]. exists r. split; [exact S1|]. split; [exact S2|].
    intros t [<-|Ht]; apply S3; [now left|right; now right].
Qed.
(* shapes without a common shape *)
Theorem values_shapes_checked : forall {A V} (K : pusher A V) (P : packer A) (R : reader V) axis x w y r,
  samples_agree x (w :: y) axis r -> ~ (exists s, broadcasts (map tshape (shaping x (w :: y))) s) ->
  reduce_vals_nd K P R axis x w y = Raise EValue.
Proof.
  intros A V K P R axis x w y r HA HB. unfold reduce_vals_nd, prepare_values.
  destruct (negb _) eqn:En; [reflexivity|].
  destruct HA as (Hx & (p & Hp & Ep) & HO). assert (EN : normalize_axis_index axis (tndim x) None = Ok p) by (apply normalize_index_ok; exact Hp).
  rewrite EN. cbn [rbind andb]. cbv zeta.
  assert (EZ : positive_to_negative_index (Z.of_nat p) (Z.of_nat (tndim x)) = (-1 - Z.of_nat r)%Z).
  { unfold positive_to_negative_index. destruct (Z.ltb_spec (Z.of_nat p) 0); lia. }
  rewrite EZ.
  assert (G : exists us, mapR (prepare_secondary (-1 - Z.of_nat r) (nth p (tshape x) 0) false) (w :: y) = Ok us /\
     map tshape (filter (fun a => Nat.ltb 1 (tndim a)) us) = map tshape (filter (fun a => Nat.ltb 1 (tndim a)) (w :: y))).
  { assert (EP : nth p (tshape x) 0 = dim_from_end x r).
    { unfold dim_from_end. rewrite from_end_nth by (change (length (tshape x)) with (tndim x); lia). f_equal. change (length (tshape x)) with (tndim x). lia. }
    rewrite EP. revert HO. generalize (w :: y). induction l as [|t l IH]; intros HO; [exists []; now split|].
    destruct IH as (us & E1 & E2); [intros t' Ht'; apply HO; now right|].
    destruct (HO t (or_introl eq_refl)) as [Ht Hf].
    assert (S1 : exists u, prepare_secondary (-1 - Z.of_nat r) (dim_from_end x r) false t = Ok u /\ (1 <? tndim u) = (1 <? tndim t) /\ ((1 <? tndim t) = true -> tshape u = tshape t)).
    { destruct (prepare_secondary (-1 - Z.of_nat r) (dim_from_end x r) false t) as [u|e] eqn:Eu.
      - exists u. split; [reflexivity|]. unfold prepare_secondary in Eu. destruct (Nat.eqb_spec (tndim t) 0) as [Z|Z].
        + injection Eu as <-. rewrite Z. split; [reflexivity|discriminate].
        + destruct (Nat.eqb (tndim t) 1); cbn [andb rbind fst snd] in Eu; destruct (shape_at t _) as [k|]; cbn [rbind] in Eu; try discriminate;
            destruct (Nat.eqb k _); try discriminate; injection Eu as <-; now split.
      - exfalso. unfold prepare_secondary in Eu. destruct (Nat.eqb_spec (tndim t) 0) as [Z|Z]; [discriminate|].
        destruct (Nat.eqb_spec (tndim t) 1) as [Z1|Z1]; cbn [andb rbind fst snd] in Eu.
        + destruct Hf as [?|[[? Hf]|(? & ? & ?)]]; try lia. unfold shape_at in Eu. change (-1)%Z with (- Z.of_nat 1)%Z in Eu.
          rewrite (zread_neg _ _ 0) in Eu by (change (length (tshape t)) with (tndim t); lia). cbn [rbind] in Eu.
          unfold dim_from_end in Hf at 1. rewrite from_end_nth in Hf by (change (length (tshape t)) with (tndim t); lia).
          replace (length (tshape t) - 1 - 0) with (length (tshape t) - 1) in Hf by lia. rewrite Hf, Nat.eqb_refl in Eu. discriminate.
        + destruct Hf as [?|[[? Hf]|(? & ? & Hf)]]; try lia. unfold shape_at in Eu. replace (-1 - Z.of_nat r)%Z with (- Z.of_nat (S r))%Z in Eu by lia.
          rewrite (zread_neg _ _ 0) in Eu by (change (length (tshape t)) with (tndim t); lia). cbn [rbind] in Eu.
          unfold dim_from_end in Hf at 1. rewrite from_end_nth in Hf by (change (length (tshape t)) with (tndim t); lia).
          replace (length (tshape t) - 1 - r) with (length (tshape t) - S r) in Hf by lia. rewrite Hf, Nat.eqb_refl in Eu. discriminate. }
    destruct S1 as (u & Eu & B1 & B2). exists (u :: us). cbn [mapR]. rewrite Eu. cbn [rbind]. rewrite E1. split; [reflexivity|].
    cbn [filter]. rewrite B1. destruct (1 <? tndim t); [|exact E2]. cbn [map]. now rewrite E2, B2. }
  destruct G as (us & E1 & E2). rewrite E1. cbn [rbind]. unfold out_from_values. rewrite E2.
  destruct (broadcast_shapes _) as [c|e] eqn:Eb; cbn [rbind].
  - exfalso. apply HB. exists c. apply broadcast_shapes_ok. exact Eb.
  - f_equal. now destruct (broadcast_shapes_raises _ _ Eb).
Qed.
