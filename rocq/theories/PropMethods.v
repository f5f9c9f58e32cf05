(* Push methods of CentralMomentsArray: what they do at each position, and what
   any history of them leaves there (C111-C113). *)
From Coq Require Import Permutation.
From Verif Require Import Base BaseLemmas ModelPush ModelPushCov ModelKernels ModelIndex ModelAccum ModelAxes ModelState ModelParams ModelNd ModelWrap ModelMethods
  Spec SpecAxes SpecNd SpecMethods
  ProofPush ProofPushCov Laws ProofKernels ProofSpec ProofReduce ProofIndex ProofLabels ProofAxes ProofArrays ProofMulti ProofNd PropParams PropWrap
  ProofNdVals PropNd PropNdVals PropReduce ProofMethods.

Lemma valid_env (sh env : nat -> nat) l : valid (map sh l) (map env l) -> inside sh l env.
Proof.
  induction l as [|x l IH]; intros W b J; [destruct J|]. cbn [map] in W. inversion W; subst. destruct J as [<-|J]; [assumption|]. now apply IH.
Qed.

(* ---- one call --------------------------------------------------------------------- *)

Section Calls.
  Context {A V : Type} (K : pusher A V) (ok : A -> Prop) (P : packer A) (R : reader V).
  Hypothesis VA : values_array K ok P R.
  Let MA : moment_array K ok P := va_array K ok P R VA.
  Context (stretch : bool) (c : cmarray) (s loop : list nat).
  Hypothesis HC : holds c s (pk_shape P).
  Hypothesis HS : stretch = true \/ loop = s.

  (* the outcome of a call that runs at_ at each position of the loop *)
  Definition runs_at (at_ : list nat -> push_op) (r : res cmarray) : Prop :=
    match r with
    | Ok c' => holds c' s (pk_shape P) /\
        forall p, valid s p -> run_ops K (map at_ (landing s loop p)) (mom_cell P (c_obj c) p) = Some (mom_cell P (c_obj c') p)
    | Raise e => e = EZeroDiv /\ exists p, valid s p /\ run_ops K (map at_ (landing s loop p)) (mom_cell P (c_obj c) p) = None
    end.
  Lemma with_runs at_ (r : res tensor) :
    match r with
    | Ok out => tensor_ok out /\ tshape out = s ++ pk_shape P /\
        forall p, valid s p -> run_ops K (map at_ (landing s loop p)) (mom_cell P (c_obj c) p) = Some (mom_cell P out p)
    | Raise e => e = EZeroDiv /\ exists p, valid s p /\ run_ops K (map at_ (landing s loop p)) (mom_cell P (c_obj c) p) = None
    end -> runs_at at_ (c_with c r).
  Proof.
    destruct r as [out|e]; cbn [c_with rbind runs_at]; [|exact (fun H => H)]. intros (H1 & H2 & H3). cbn [c_obj]. split; [|exact H3].
    destruct HC as (_ & _ & L & F & Ep). repeat (split; [assumption|]). exact Ep.
  Qed.
  Lemma at_ops_ok call at_ : push_call_at P R s loop call at_ -> forall l, op_ok ok (at_ l).
  Proof.
    intros H l. inversion H; subst; cbn [op_ok]; try exact I; try apply (mom_cell_ok _ _ _ MA).
    apply Forall_forall. intros d0 Hd. unfold rows_along in Hd. apply in_map_iff in Hd. destruct Hd as (r & <- & _). apply (ma_pack_ok _ _ _ MA).
  Qed.
  Lemma obj_shape : tensor_ok (c_obj c) /\ tshape (c_obj c) = s ++ pk_shape P.
  Proof. destruct HC as (H1 & H2 & _). split; [exact H1|exact H2]. Qed.
  Lemma run_update (ops : list operand_of) f at_ :
    Forall (fun o : operand_of => op_reads (fst (fst o)) (fst (snd o)) (snd (fst o)) (snd (snd o))) ops ->
    broadcasts (map (fun o : operand_of => fst (snd o)) ops ++ [s]) loop ->
    (forall l, op_ok ok (at_ l)) ->
    (forall l cur es, valid loop l ->
       Forall2 (fun e (o : operand_of) => forall c, valid (snd (fst o)) c -> e c = snd (snd o) (stretched (fst (snd o)) l) c) es ops ->
       f cur es = of_opt EZeroDiv (run_op K cur (at_ l))) ->
    runs_at at_ (c_with c (gufunc_update K P stretch (map fst ops) (c_obj c) (axes_last (mom_ndim P)) f)).
  Proof.
    intros RO B Hok Hf. destruct (reads_list ops RO) as (ins & I1 & I2 & I3 & I4). destruct obj_shape as [To Es].
    apply with_runs. apply (update_cells K ok P MA stretch (map fst ops) ins); auto.
    - now rewrite I3.
    - intros l cur Vl. apply Hf; [exact Vl|]. apply I4. apply Forall_forall. intros o Ho.
      eapply stretched_valid; [exact B| |exact Vl]. apply in_or_app. left. now apply (in_map (fun o : operand_of => fst (snd o))).
  Qed.

  Lemma data_runs d sd : tshape d = sd ++ pk_shape P -> broadcasts [sd; s] loop ->
    runs_at (fun l => PushData (mom_cell P d (stretched sd l))) (c_push_data K P stretch c d None).
  Proof.
    intros Es B. unfold c_push_data. change [last_core d (pk_shape P)] with (map fst [op_last d sd (pk_shape P)]). apply run_update.
    - constructor; [now apply op_last_reads|constructor].
    - exact B.
    - intros l. apply (mom_cell_ok _ _ _ MA).
    - intros l cur es Vl H. inversion H as [|e o es' os He H']; subst. inversion H'; subst. cbn [run_op]. do 2 f_equal.
      apply (proj1 (ma_packer _ _ _ MA)). intros m Vm. unfold acc. cbn [nth]. now rewrite He.
  Qed.
  Lemma scale_runs d sd sc : tshape d = sd ++ pk_shape P -> broadcasts [sd; tshape sc; s] loop ->
    runs_at (fun l => PushDataScale (mom_cell P d (stretched sd l)) (value_on sc l)) (c_push_data K P stretch c d (Some sc)).
  Proof.
    intros Es B. unfold c_push_data.
    change [last_core d (pk_shape P); last_core sc []] with (map fst [op_last d sd (pk_shape P); op_last sc (tshape sc) []]). apply run_update.
    - constructor; [now apply op_last_reads|]. constructor; [|constructor]. apply op_last_reads. now rewrite app_nil_r.
    - exact B.
    - intros l. apply (mom_cell_ok _ _ _ MA).
    - intros l cur es Vl H. inversion H as [|e o es' os He H']; subst. inversion H' as [|e1 o1 es1 os1 He1 H1]; subst. inversion H1; subst.
      cbn [run_op]. unfold acc. cbn [nth]. rewrite (He1 [] ltac:(constructor)). unfold value_on. cbn [op_last fst snd]. rewrite app_nil_r.
      do 2 f_equal. apply (proj1 (ma_packer _ _ _ MA)). intros m Vm. now rewrite He.
  Qed.
  Lemma val_runs x w y : S (length y) = length (pk_shape P) -> broadcasts (map tshape (x :: w :: y) ++ [s]) loop ->
    runs_at (fun l => PushVal (rd_val R (map (fun t => value_on t l) (x :: y))) (value_on w l)) (c_push_val K P R stretch c x w y).
  Proof.
    intros Ly B. unfold c_push_val, mom_ndim. rewrite (proj2 (Nat.eqb_eq _ _) Ly). cbn [negb].
    assert (EM : map (fun t => last_core t []) (x :: w :: y) = map fst (map (fun t => op_last t (tshape t) []) (x :: w :: y))) by now rewrite map_map.
    rewrite EM. apply run_update.
    - apply Forall_forall. intros o Ho. apply in_map_iff in Ho. destruct Ho as (t & <- & _). apply op_last_reads. now rewrite app_nil_r.
    - rewrite map_map. exact B.
    - intros l. exact I.
    - intros l cur es Vl H.
      assert (EV : map (fun e : list nat -> Qc => e []) es = map (fun t => value_on t l) (x :: w :: y)).
      { clear - H. revert es H. generalize (x :: w :: y). induction l0 as [|t ts IH]; intros es H; cbn [map] in H; [inversion H; reflexivity|].
        inversion H as [|e o es' os He H']; subst. cbn [map]. rewrite (IH _ H'). f_equal. rewrite (He [] ltac:(constructor)). cbn [op_last fst snd].
        now rewrite app_nil_r. }
      destruct es as [|ex [|ew ey]]; try discriminate. cbn [map] in EV. injection EV as E1 E2 E3. cbn [run_op]. unfold acc. cbn [nth skipn map].
      rewrite E1, E2. do 4 f_equal. exact E3.
  Qed.
  Lemma vals_runs axis r x w y : S (length y) = length (pk_shape P) -> samples_agree x (w :: y) axis r ->
    broadcasts (map (value_loop r) (x :: w :: y) ++ [s]) loop ->
    runs_at (fun l => PushVals (samples_on R x w y r l)) (c_push_vals K P R stretch c axis x w y).
  Proof.
    intros Ly HA B. unfold c_push_vals, mom_ndim. rewrite <- Ly.
    destruct (prepare_values_reads axis r x (w :: y) HA) as (ux & us & Ep & Ed & Lu & RO). cbn [length] in Ep. rewrite Ep. cbn [rbind]. cbv zeta. rewrite Ed.
    destruct us as [|uw uy]; [discriminate|]. cbn [length] in Lu.
    assert (LY : length uy = length y) by lia.
    assert (EM : map (fun t => last_core t [dim_from_end x r]) (ux :: uw :: uy)
      = map fst (map (fun p => op_value r (dim_from_end x r) (fst p) (snd p)) (combine (x :: w :: y) (ux :: uw :: uy)))).
    { rewrite map_map. cbn [combine map op_value fst snd]. do 2 f_equal. clear - LY. revert uy LY. induction y as [|t y IH]; intros [|u uy] L; try discriminate; [reflexivity|].
      cbn [combine map op_value fst snd]. f_equal. apply IH. cbn in L. lia. }
    rewrite EM. rewrite Ly. apply run_update.
    - exact RO.
    - rewrite map_map. cbn [combine map].
      assert (EL : map (fun p => fst (snd (op_value r (dim_from_end x r) (fst p) (snd p)))) (combine y uy) = map (value_loop r) y).
      { clear - LY. revert uy LY. induction y as [|t y IH]; intros [|u uy] L; try discriminate; [reflexivity|].
        cbn [combine map op_value fst snd]. f_equal. apply IH. cbn in L. lia. }
      rewrite EL. exact B.
    - intros l. exact I.
    - intros l cur es Vl H. cbn [run_op]. now rewrite (samples_seen R r x w y ux uw uy l es LY H).
  Qed.
  Lemma params_ndim : c_params c = AP (Some (Z.of_nat (length (pk_shape P)))) (Some (axes_last (length (pk_shape P)))) /\
    (length (pk_shape P) = 1 \/ length (pk_shape P) = 2).
  Proof. destruct HC as (_ & _ & L & _ & Ep). split; [exact Ep|exact L]. Qed.
  Lemma factory_axes (mom_axes : option (list Z)) mom : mom = match mom_axes with Some l => l | None => axes_last (length (pk_shape P)) end ->
    length mom = length (pk_shape P) ->
    array_factory false MPNone (ap_ndim (c_params c)) (option_map IIter mom_axes) None = Ok (AP (Some (Z.of_nat (length (pk_shape P)))) (Some mom)).
  Proof.
    intros -> L. destruct params_ndim as [Ep L2]. rewrite Ep. cbn [ap_ndim array_factory is_array_params]. cbv zeta.
    cbn [as_mpdict set_ndim d_axes d_ndim setdefault kwarg]. unfold array_from_params, validate_mom_ndim_and_mom_axes.
    destruct mom_axes as [l|]; cbn [option_map].
    - unfold validate_mom_axes. rewrite L. replace (Nat.eqb (length (pk_shape P)) 1 || Nat.eqb (length (pk_shape P)) 2)%bool with true by (destruct L2 as [-> | ->]; reflexivity).
      cbn [rbind]. rewrite L, Z.eqb_refl. reflexivity.
    - destruct L2 as [-> | ->]; reflexivity.
  Qed.
  Lemma datas_runs axis mom_axes mom a M L d : mom = match mom_axes with Some l => l | None => axes_last (length (pk_shape P)) end ->
    axis_of_moments P mom axis a M d -> L = except_nat (seq 0 (tndim d)) (a :: M) -> broadcasts [map (shape_of d) L; s] loop ->
    runs_at (fun l => PushDatas (rows_along P d [a] M (bind L (stretched (map (shape_of d) L) l) (fun _ => 0))))
      (c_push_datas K P stretch c axis (option_map IIter mom_axes) d).
  Proof.
    intros Em HA EL B. assert (LM : length M = length (pk_shape P)) by (destruct HA as (_ & _ & _ & _ & X); rewrite <- X; now rewrite map_length).
    assert (Lmom : length mom = length (pk_shape P)) by (destruct HA as (_ & X & _); rewrite (Forall2_len _ _ _ X); exact LM).
    unfold c_push_datas. rewrite (factory_axes mom_axes mom Em Lmom). cbn [rbind iter_axes ap_axes].
    destruct (prepare_data_view P mom axis true a M d HA) as (za & mom' & t' & Ep & Vt & Fa & Ea). cbn zeta in *. rewrite Ep. cbn [rbind].
    destruct params_ndim as [EP L2]. rewrite EP. cbn [iter_axes ap_axes rbind]. cbv zeta.
    destruct HA as (Td & FM & NA & ND & SM). cbn [column_axes] in *. rewrite <- EL in *.
    assert (Bd : forall b, In b (a :: M) -> b < tndim d) by (intros b [<-|Hb]; [now apply names_axis_lt in NA|]; apply (is_axis_range _ _ _ FM); exact Hb).
    assert (NDL : NoDup (L ++ a :: M)).
    { pose proof (column_axes_perm true (tndim d) a M ND Bd) as X. cbn [column_axes] in X. rewrite <- EL in X. apply (perm_range _ _ X). }
    destruct Vt as (Tt & Ts & Tv). set (n := shape_of d a).
    assert (Es : tshape t' = map (shape_of d) L ++ n :: pk_shape P) by (rewrite Ts, map_app; cbn [map]; now rewrite SM).
    assert (Iz : index_of a (L ++ a :: M) = length L).
    { pose proof (positions_tail L (a :: M) NDL) as X. cbn [map seq length] in X. injection X as X _. exact X. }
    assert (Dn : dim_at t' za = n).
    { unfold dim_at. rewrite Ea, Iz. destruct (Z.ltb_spec (Z.of_nat (length L)) 0); [lia|]. rewrite Nat2Z.id, Es, app_nth2 by (rewrite map_length; lia).
      rewrite map_length, Nat.sub_diag. reflexivity. }
    rewrite Dn.
    assert (RD : op_reads (t', za :: axes_last (length (pk_shape P))) (map (shape_of d) L) (n :: pk_shape P) (fun p q => tget t' (p ++ q))).
    { apply reads_last; [exact Es|]. cbn [length seq]. rewrite map_length.
      assert (Nn : tndim t' = length L + S (length (pk_shape P))) by (unfold tndim; rewrite Es, app_length, map_length; reflexivity).
      constructor; [rewrite Ea, Iz; split; [lia|now left]|]. rewrite Nn. apply axes_last_positions; [lia|]. f_equal. lia. }
    change [(t', za :: axes_last (length (pk_shape P)), n :: pk_shape P)]
      with (map fst [((t', za :: axes_last (length (pk_shape P)), n :: pk_shape P), (map (shape_of d) L, fun p q => tget t' (p ++ q))) : operand_of]).
    apply run_update.
    - constructor; [exact RD|constructor].
    - exact B.
    - intros l. cbn [op_ok]. apply Forall_forall. intros r0 Hr. unfold rows_along in Hr. apply in_map_iff in Hr. destruct Hr as (r & <- & _). apply (ma_pack_ok _ _ _ MA).
    - intros l cur es Vl H. inversion H as [|e o es' os He H']; subst es o. inversion H'; subst es' os. clear H H'. cbn [fst snd] in He. cbn [run_op]. do 2 f_equal.
      assert (Vp : valid (map (shape_of d) L) (stretched (map (shape_of d) L) l)) by (eapply stretched_valid; [exact B|now left|exact Vl]).
      set (p := stretched (map (shape_of d) L) l) in *. unfold core_rows, rows_along, acc. cbn [nth map]. fold n. cbn [all_idx].
      rewrite flat_map_concat_map. cbn [map]. rewrite <- (map_map (fun i => [i]) (fun r => [r])).
      assert (EC : forall T (g : nat -> T) k, concat (map (fun r => [r]) (map g (seq 0 k))) = map g (seq 0 k)).
      { intros T g k. generalize (map g (seq 0 k)). induction l0 as [|z l0 IH]; [reflexivity|]. cbn. now rewrite IH. }
      rewrite EC, map_map. apply map_ext_in. intros i Hi. apply in_seq in Hi. unfold moment_at. apply (proj1 (ma_packer _ _ _ MA)). intros m Vm.
      rewrite He by (constructor; [lia|exact Vm]). pose proof (valid_length _ _ Vp) as Lp. rewrite map_length in Lp. pose proof (valid_length _ _ Vm) as Lm.
      set (env := bind M m (bind [a] [i] (bind L p (fun _ => 0)))).
      inversion ND as [|? ? Na NM]; subst x l0. destruct (NoDup_app_parts _ _ NDL) as (NL & _ & DL).
      assert (E1 : map env L = p).
      { transitivity (map (bind L p (fun _ => 0)) L); [|now apply map_bind]. apply map_ext_in. intros b Hb. unfold env.
        rewrite bind_out by (intros C; apply (DL b Hb); now right). apply bind_out. intros [<-|[]]. apply (DL a Hb). now left. }
      assert (E2 : env a = i) by (unfold env; rewrite bind_out by exact Na; unfold bind; cbn; now rewrite Nat.eqb_refl).
      assert (E3 : map env M = m) by (apply map_bind; [exact NM|congruence]).
      rewrite <- Tv.
      + f_equal. rewrite map_app. cbn [map]. now rewrite E1, E2, E3.
      + intros b Hb. assert (Vb : valid (map (shape_of d) (L ++ a :: M)) (map env (L ++ a :: M))).
        { rewrite !map_app. cbn [map]. rewrite E1, E2, E3, SM. apply Forall2_app; [exact Vp|]. constructor; [lia|exact Vm]. }
        revert b Hb. now apply valid_env.
  Qed.

  (* C111 *)
  Theorem push_call_by_positions call at_ : push_call_at P R s loop call at_ -> runs_at at_ (run_call K P R stretch c call).
  Proof.
    intros H. destruct H; cbn [run_call].
    - now apply data_runs.
    - now apply scale_runs.
    - now apply (datas_runs axis mom_axes mom a M).
    - now apply val_runs.
    - now apply (vals_runs axis r).
  Qed.
End Calls.

(* ---- histories ------------------------------------------------------------------------ *)

Lemma run_ops_app {A V} (K : pusher A V) ops1 ops2 o :
  run_ops K (ops1 ++ ops2) o = match run_ops K ops1 o with Some a => run_ops K ops2 a | None => None end.
Proof. unfold run_ops. rewrite foldM_app. now destruct (foldM _ ops1 o). Qed.
(* the operations of a history at position p *)
Definition history_at {A V} (s : list nat) (las : list (list nat * (list nat -> push_op (A := A) (V := V)))) (p : list nat) : list push_op :=
  concat (map (fun la => map (snd la) (landing s (fst la) p)) las).
(* every call fits the object *)
Definition history_fits {A V} (P : packer A) (R : reader V) (stretch : bool) (s : list nat) (calls : list push_call)
    (las : list (list nat * (list nat -> push_op))) : Prop :=
  Forall2 (fun call la => push_call_at P R s (fst la) call (snd la) /\ (stretch = true \/ fst la = s)) calls las.

(* C112: an object after any sequence of push calls holds at each position what
   the operations that fell on it give, in order; an error occurs only when some
   position has one *)
Theorem push_history_by_positions : forall {A V} (K : pusher A V) ok P R, values_array K ok P R ->
  forall stretch s calls las, history_fits P R stretch s calls las -> forall c, holds c s (pk_shape P) ->
  match foldR (run_call K P R stretch) calls c with
  | Ok c' => holds c' s (pk_shape P) /\
      forall p, valid s p -> run_ops K (history_at s las p) (mom_cell P (c_obj c) p) = Some (mom_cell P (c_obj c') p)
  | Raise e => e = EZeroDiv /\ exists p, valid s p /\ run_ops K (history_at s las p) (mom_cell P (c_obj c) p) = None
  end.
Proof.
  intros A V K ok P R VA stretch s calls las H. induction H as [|call la calls las [Hc Hs] H IH]; intros c HC; cbn [foldR].
  - split; [exact HC|]. intros p _. reflexivity.
  - pose proof (push_call_by_positions K ok P R VA stretch c s (fst la) HC Hs call (snd la) Hc) as X. unfold runs_at in X.
    assert (EH : forall p, history_at s (la :: las) p = map (snd la) (landing s (fst la) p) ++ history_at s las p) by reflexivity.
    destruct (run_call K P R stretch c call) as [c1|e]; cbn [rbind].
    + destruct X as [H1 X]. specialize (IH c1 H1). destruct (foldR _ calls c1) as [c'|e].
      * destruct IH as [H2 IH]. split; [exact H2|]. intros p Vp. rewrite EH, run_ops_app, (X p Vp). now apply IH.
      * destruct IH as [Ee (p & Vp & IH)]. split; [exact Ee|]. exists p. split; [exact Vp|]. now rewrite EH, run_ops_app, (X p Vp).
    + destruct X as [Ee (p & Vp & X)]. split; [exact Ee|]. exists p. split; [exact Vp|]. now rewrite EH, run_ops_app, X.
Qed.

(* ---- zeros ------------------------------------------------------------------------------ *)

Lemma zero_cell {A V} (K : pusher A V) ok P : moment_array K ok P -> forall f, (forall m, valid (pk_shape P) m -> f m = 0%Qc) -> pk_pack P f = p_zero K.
Proof.
  intros MA f Hf. rewrite (proj1 (ma_packer _ _ _ MA) f (fun _ => 0%Qc) Hf). clear Hf f. destruct MA as [nmax n H|nmax n0 n1 H0 H1]; cbn [packer1 packer2 pk_pack pusher1 pusher2 p_zero].
  - unfold zeros1. apply (nth_ext _ _ 0%Qc 0%Qc); [now rewrite map_length, seq_length, repeat_length|]. intros k Hk. rewrite map_length, seq_length in Hk.
    rewrite (nth_map_in _ _ _ _ 0) by (now rewrite seq_length). symmetry. apply nth_repeat.
  - unfold zeros2.
    assert (E : map (fun _ : nat => 0%Qc) (seq 0 (S n1)) = repeat 0%Qc (S n1)).
    { apply (nth_ext _ _ 0%Qc 0%Qc); [now rewrite map_length, seq_length, repeat_length|]. intros k Hk. rewrite map_length, seq_length in Hk.
      rewrite (nth_map_in _ _ _ _ 0) by (now rewrite seq_length). symmetry. apply nth_repeat. }
    rewrite E. unfold zeros1. change (S n0) with (S n0). generalize (repeat 0%Qc (S n1)). generalize (S n0). clear. intros k z. generalize 0.
    induction k as [|k IH]; intros a; [reflexivity|]. cbn [seq map repeat]. f_equal. apply IH.
Qed.
Lemma zeros_object ms s : (length ms = 1 \/ length ms = 2) -> Forall (fun n => 2 <= n) ms ->
  exists c, c_zeros (IIter (map (fun n => (Z.of_nat n - 1)%Z) ms)) s = Ok c /\ holds c s ms /\
    forall idx, valid (s ++ ms) idx -> tget (c_obj c) idx = 0%Qc.
Proof.
  intros L F. unfold c_zeros, array_factory_mom, validate_mom.
  assert (IT : is_mom_tuple (map (fun n => (Z.of_nat n - 1)%Z) ms) = true).
  { unfold is_mom_tuple. rewrite map_length. replace (Nat.eqb (length ms) 1 || Nat.eqb (length ms) 2)%bool with true by (destruct L as [-> | ->]; reflexivity).
    cbn [andb]. apply forallb_forall. intros z Hz. apply in_map_iff in Hz. destruct Hz as (n & <- & Hn). rewrite Forall_forall in F. specialize (F n Hn). apply Z.ltb_lt. cbn in F. lia. }
  rewrite IT. cbn [rbind]. rewrite map_length.
  assert (AF : array_factory false MPNone (Some (Z.of_nat (length ms))) None None = Ok (AP (Some (Z.of_nat (length ms))) (Some (axes_last (length ms))))).
  { destruct L as [-> | ->]; reflexivity. }
  rewrite AF. cbn [rbind]. rewrite map_map.
  assert (EM : map (fun n => Z.to_nat (Z.of_nat n - 1 + 1)) ms = ms) by (rewrite <- (map_id ms) at 2; apply map_ext; intros n; lia).
  rewrite EM. set (t := tabulate (s ++ ms) (fun _ => 0%Qc)).
  assert (Ts : tshape t = s ++ ms) by reflexivity. assert (To : tensor_ok t) by apply tabulate_ok.
  assert (AF' : array_factory false (as_arg (AP (Some (Z.of_nat (length ms))) (Some (axes_last (length ms))))) None None (Some 1%Z) =
      Ok (AP (Some (Z.of_nat (length (axes_last (length ms))))) (Some (axes_last (length ms))))) by (destruct L as [-> | ->]; reflexivity).
  assert (LA : length (axes_last (length ms)) = length ms) by (unfold axes_last; now rewrite map_length, seq_length).
  assert (Tn : tndim t = length s + length ms) by (unfold tndim; now rewrite Ts, app_length).
  pose proof (axes_last_named (tndim t) (length ms) ltac:(lia)) as FA.
  replace (tndim t - length ms) with (length s) in FA by lia.
  assert (EM2 : map (shape_of t) (seq (length s) (length ms)) = ms).
  { apply (nth_ext _ _ 0 0); [now rewrite map_length, seq_length|]. intros k Hk. rewrite map_length, seq_length in Hk.
    rewrite (nth_map_in _ _ _ _ 0) by (now rewrite seq_length). rewrite seq_nth by exact Hk. unfold shape_of. rewrite Ts, app_nth2 by lia. f_equal. lia. }
  destruct (init_moves_axes _ None None t (axes_last (length ms)) (seq (length s) (length ms)) To AF') as (c & Ec & Hc & Hv);
    [now rewrite LA|exact FA|apply seq_NoDup| |].
  { rewrite Forall_forall in F |- *. intros a Ha. apply F. rewrite <- EM2. now apply in_map. }
  exists c. split; [exact Ec|].
  pose proof (seq_split_last (tndim t) (length ms) ltac:(lia)) as SL. replace (tndim t - length ms) with (length s) in SL by lia. rewrite SL in Hc, Hv.
  assert (ES : map (shape_of t) (seq 0 (length s)) = s).
  { apply (nth_ext _ _ 0 0); [now rewrite map_length, seq_length|]. intros k Hk. rewrite map_length, seq_length in Hk.
    rewrite (nth_map_in _ _ _ _ 0) by (now rewrite seq_length). rewrite seq_nth by exact Hk. unfold shape_of. rewrite Ts, app_nth1 by lia. reflexivity. }
  rewrite ES, EM2 in Hc. split; [exact Hc|].
  intros idx V. pose (env := fun k => nth k idx 0). assert (LI : length idx = tndim t) by (rewrite Tn, <- app_length; now apply valid_length).
  assert (Ei : map env (seq 0 (tndim t)) = idx) by (unfold env; rewrite <- LI; apply map_nth_seq; reflexivity).
  specialize (Hv env). unfold mom_entry in Hv. rewrite <- map_app in Hv.
  pose proof (seq_halves (tndim t) (length ms) ltac:(lia)) as SH. replace (tndim t - length ms) with (length s) in SH by lia. rewrite <- SH in Hv.
  rewrite Ei in Hv. rewrite Hv.
  - unfold entry. rewrite Ei. now apply tget_tabulate.
  - apply valid_env. rewrite Ei. replace (map (shape_of t) (seq 0 (tndim t))) with (s ++ ms); [exact V|].
    rewrite SH, map_app, ES, EM2. reflexivity.
Qed.
