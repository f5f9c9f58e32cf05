(* Push calls that do not fit the object raise an error (C114). *)
From Verif Require Import Base BaseLemmas ModelPush ModelKernels ModelIndex ModelAccum ModelAxes ModelState ModelParams ModelNd ModelWrap ModelMethods
  Spec SpecAxes SpecNd SpecMethods Laws ProofSpec ProofAxes ProofArrays ProofMulti ProofNd ProofNdVals PropReduce PropNd PropNdVals PropWrap ProofMethods PropMethods.

Lemma argument_error_dec {T} (r : res T) : {argument_error r} + {~ argument_error r}.
Proof. destruct r as [x|[]]; try (right; intros [X|X]; discriminate); left; [now left|now right]. Qed.
Lemma with_error c (r : res tensor) : argument_error r -> argument_error (c_with c r).
Proof. intros [-> | ->]; [now left|now right]. Qed.

Lemma combine_app_len {X Y} (a b : list X) (c d : list Y) : length a = length c -> combine (a ++ b) (c ++ d) = combine a c ++ combine b d.
Proof. revert c. induction a as [|x a IH]; intros [|y c] H; try discriminate; [reflexivity|]. cbn. f_equal. apply IH. cbn in H. lia. Qed.

Section Refuse.
  Context {A V : Type} (K : pusher A V) (ok : A -> Prop) (P : packer A) (R : reader V).
  Hypothesis VA : values_array K ok P R.
  Context (stretch : bool) (c : cmarray) (s : list nat).
  Hypothesis HC : holds c s (pk_shape P).

  Lemma update_refused (ops : list operand_of) f :
    Forall (fun o : operand_of => op_reads (fst (fst o)) (fst (snd o)) (snd (fst o)) (snd (snd o))) ops ->
    ~ (exists loop, broadcasts (map (fun o : operand_of => fst (snd o)) ops ++ [s]) loop /\ (stretch = true \/ loop = s)) ->
    gufunc_update K P stretch (map fst ops) (c_obj c) (axes_last (mom_ndim P)) f = Raise EValue.
  Proof.
    intros RO NB. destruct (reads_list ops RO) as (ins & I1 & I2 & I3 & I4). destruct (obj_shape P c s HC) as [To Es].
    unfold gufunc_update. rewrite I1. cbn [rbind].
    destruct (reads_last (c_obj c) (axes_last (mom_ndim P)) s (pk_shape P) Es) as [CA RD].
    { apply axes_last_positions; [unfold tndim, mom_ndim; rewrite Es, app_length; lia|]. f_equal. unfold tndim, mom_ndim. rewrite Es, app_length. lia. }
    rewrite CA. cbn [rbind]. destruct RD as (C & CA' & LS & CS & CE). rewrite CA in CA'. injection CA' as <-. cbn [fst] in LS, CS, CE.
    destruct (negb (forallb _ _)); [reflexivity|]. rewrite map_app. cbn [map]. rewrite LS, I3.
    destruct (broadcast_shapes (map (fun o : operand_of => fst (snd o)) ops ++ [s])) as [loop|e] eqn:EB; cbn [rbind].
    - apply broadcast_shapes_ok in EB. destruct (stretch || nats_eqb loop s)%bool eqn:X; [|reflexivity].
      exfalso. apply NB. exists loop. split; [exact EB|]. apply orb_true_iff in X. destruct X as [X|X]; [now left|right]. now apply nats_eqb_eq.
    - now destruct (broadcast_shapes_raises _ _ EB) as [-> _].
  Qed.
  Lemma update_core_refused args a f : In a args ->
    (forall C, core_axes (fst a) = Ok (fst (fst a), C) -> core_shape (fst (fst a), C) <> snd a) ->
    gufunc_update K P stretch args (c_obj c) (axes_last (mom_ndim P)) f = Raise EValue.
  Proof.
    intros Ia Ha. unfold gufunc_update. destruct (mapR (fun a => core_axes (fst a)) args) as [ins|e] eqn:EI; cbn [rbind].
    2: { apply mapR_raise in EI. destruct EI as (u & _ & Eu). now rewrite (core_axes_err _ _ Eu). }
    destruct (core_axes (c_obj c, axes_last (mom_ndim P))) as [o|e] eqn:EO; cbn [rbind].
    2: { now rewrite (core_axes_err _ _ EO). }
    replace (forallb _ _) with false; [reflexivity|]. symmetry. apply not_true_iff_false. intros X.
    assert (LI : length ins = length args) by (apply mapR_Forall2 in EI; clear -EI; induction EI; cbn; congruence).
    rewrite combine_app_len in X by (now rewrite map_length). rewrite forallb_app in X. apply andb_prop in X. destruct X as [X _].
    apply mapR_Forall2 in EI. clear LI. revert X. induction EI as [|u v args ins Hu EI IH]; [destruct Ia|]. cbn [map combine forallb fst snd].
    intros X. apply andb_prop in X. destruct X as [X1 X2]. destruct Ia as [->|Ia]; [|now apply IH].
    apply nats_eqb_eq in X1. assert (Ev : v = (fst (fst a), snd v)).
    { unfold core_axes in Hu. destruct (normalize_axis_tuple _ _ _ _) as [l|]; cbn [rbind] in Hu; [|discriminate]. injection Hu as <-. reflexivity. }
    rewrite Ev in Hu, X1. exact (Ha _ Hu X1).
  Qed.
  Lemma last_core_refused t cs : (forall sd, tshape t <> sd ++ cs) ->
    forall C, core_axes (fst (last_core t cs)) = Ok (t, C) -> core_shape (t, C) <> cs.
  Proof.
    intros H C EC X. unfold core_axes, last_core in EC. cbn [fst snd] in EC. destruct (normalize_axis_tuple _ _ _ _) as [l|] eqn:EN; cbn [rbind] in EC; [|discriminate].
    injection EC as <-. apply tuple_ints in EN. destruct EN as [F _].
    destruct (le_lt_dec (length cs) (tndim t)) as [L|L].
    - pose proof (axes_last_named (tndim t) (length cs) L) as F'. rewrite (forall2_is_axis_fun _ _ _ _ F F') in X.
      apply (H (firstn (tndim t - length cs) (tshape t))). rewrite <- (firstn_skipn (tndim t - length cs) (tshape t)) at 1. f_equal.
      etransitivity; [|exact X]. unfold core_shape. cbn [fst snd]. apply (nth_ext _ _ 0 0).
      + rewrite skipn_length, map_length, seq_length. fold (tndim t). lia.
      + intros k Hk. rewrite skipn_length in Hk. fold (tndim t) in Hk. rewrite nth_skipn', (nth_map_in _ _ _ _ 0) by (rewrite seq_length; lia).
        rewrite seq_nth by lia. reflexivity.
    - destruct cs as [|m cs]; [cbn in L; lia|]. cbn [length axes_last seq map] in F. unfold axes_last in F. cbn [length seq map] in F.
      inversion F as [|? b ? ? [Hb1 Hb2] _]; subst. cbn in L. lia.
  Qed.
  Lemma data_shape_dec d : {sd | tshape d = sd ++ pk_shape P} + {forall sd, tshape d <> sd ++ pk_shape P}.
  Proof.
    destruct (list_eq_dec Nat.eq_dec (skipn (tndim d - length (pk_shape P)) (tshape d)) (pk_shape P)) as [E|E].
    - left. exists (firstn (tndim d - length (pk_shape P)) (tshape d)). rewrite <- E at 2. now rewrite firstn_skipn.
    - right. intros sd X. apply E. unfold tndim. rewrite X, app_length. replace (length sd + length (pk_shape P) - length (pk_shape P)) with (length sd) by lia.
      rewrite skipn_app, skipn_all, Nat.sub_diag. reflexivity.
  Qed.
  Lemma datas_read {B} (P' : packer B) mom axis a M d : axis_of_moments P' mom axis a M d ->
    let L := except_nat (seq 0 (tndim d)) (a :: M) in
    exists za mom' t', prepare_data axis mom true d = Ok (za, mom', t') /\ dim_at t' za = shape_of d a /\
      op_reads (t', za :: axes_last (length M)) (map (shape_of d) L) (shape_of d a :: map (shape_of d) M) (fun p q => tget t' (p ++ q)).
  Proof.
    intros HA L. destruct (prepare_data_view P' mom axis true a M d HA) as (za & mom' & t' & Ep & Vt & Fa & Ea). cbn zeta in *.
    exists za, mom', t'. split; [exact Ep|].
    destruct HA as (Td & FM & NA & ND & SM). cbn [column_axes] in *. fold L in Vt, Fa, Ea.
    assert (Bd : forall b, In b (a :: M) -> b < tndim d) by (intros b [<-|Hb]; [now apply names_axis_lt in NA|]; apply (is_axis_range _ _ _ FM); exact Hb).
    assert (NDL : NoDup (L ++ a :: M)).
    { pose proof (column_axes_perm true (tndim d) a M ND Bd) as X. cbn [column_axes] in X. fold L in X. apply (perm_range _ _ X). }
    destruct Vt as (Tt & Ts & Tv). set (n := shape_of d a).
    assert (Es : tshape t' = map (shape_of d) L ++ n :: map (shape_of d) M) by (rewrite Ts, map_app; reflexivity).
    assert (Iz : index_of a (L ++ a :: M) = length L).
    { pose proof (positions_tail L (a :: M) NDL) as X. cbn [map seq length] in X. injection X as X _. exact X. }
    split.
    - unfold dim_at. rewrite Ea, Iz. destruct (Z.ltb_spec (Z.of_nat (length L)) 0); [lia|]. rewrite Nat2Z.id, Es, app_nth2 by (rewrite map_length; lia).
      rewrite map_length, Nat.sub_diag. reflexivity.
    - apply reads_last; [exact Es|]. cbn [length seq]. rewrite !map_length.
      assert (Nn : tndim t' = length L + S (length M)) by (unfold tndim; rewrite Es, app_length; cbn [length]; now rewrite !map_length).
      constructor; [rewrite Ea, Iz; split; [lia|now left]|]. rewrite Nn. apply axes_last_positions; [lia|]. f_equal. lia.
  Qed.
  Lemma factory_refused l : length l <> length (pk_shape P) ->
    array_factory false MPNone (ap_ndim (c_params c)) (Some (IIter l)) None = Raise EValue.
  Proof.
    intros L. destruct (params_ndim P c s HC) as [Ep L2]. rewrite Ep. cbn [ap_ndim array_factory is_array_params]. cbv zeta.
    cbn [as_mpdict set_ndim d_axes d_ndim setdefault kwarg]. unfold array_from_params, validate_mom_ndim_and_mom_axes, validate_mom_axes.
    destruct (Nat.eqb (length l) 1 || Nat.eqb (length l) 2)%bool eqn:E; cbn [rbind]; [|reflexivity].
    destruct (Z.eqb_spec (Z.of_nat (length l)) (Z.of_nat (length (pk_shape P)))); [lia|reflexivity].
  Qed.

  (* the arrays of a call are arrays *)
  Definition call_arrays (call : push_call) : list tensor :=
    match call with
    | CallData d None => [d] | CallData d (Some sc) => [d; sc] | CallDatas _ _ d => [d]
    | CallVal x w y => x :: w :: y | CallVals _ x w y => x :: w :: y
    end.
  (* a call fits the object: it can be run at the positions of some loop *)
  Definition call_fits (call : push_call) : Prop :=
    exists loop at_, push_call_at P R s loop call at_ /\ (stretch = true \/ loop = s).

  (* C114: a call that does not fit raises ValueError or IndexError, whatever the data *)
  Theorem push_call_misfits call : Forall tensor_ok (call_arrays call) -> ~ call_fits call -> argument_error (run_call K P R stretch c call).
  Proof.
    intros HT NF. pose proof (va_array _ _ _ _ VA) as MA. destruct call as [d [sc|]|axis mom_axes d|x w y|axis x w y]; cbn [run_call call_arrays] in *.
    - apply with_error. left. destruct (data_shape_dec d) as [[sd Es]|N].
      + change [last_core d (pk_shape P); last_core sc []] with (map fst [op_last d sd (pk_shape P); op_last sc (tshape sc) []]). apply update_refused.
        * constructor; [now apply op_last_reads|]. constructor; [|constructor]. apply op_last_reads. now rewrite app_nil_r.
        * intros (loop & B & H). apply NF. exists loop. eexists. split; [|exact H]. inversion HT as [|? ? T1 HT']; subst. inversion HT'; subst.
          apply (at_scale P R s loop d sd sc); assumption.
      + apply (update_core_refused _ (last_core d (pk_shape P))); [now left|]. now apply last_core_refused.
    - apply with_error. left. destruct (data_shape_dec d) as [[sd Es]|N].
      + change [last_core d (pk_shape P)] with (map fst [op_last d sd (pk_shape P)]). apply update_refused.
        * constructor; [now apply op_last_reads|constructor].
        * intros (loop & B & H). apply NF. exists loop. eexists. split; [|exact H]. inversion HT; subst. apply (at_data P R s loop d sd); assumption.
      + apply (update_core_refused _ (last_core d (pk_shape P))); [now left|]. now apply last_core_refused.
    - unfold c_push_datas. set (mom := match mom_axes with Some l => l | None => axes_last (length (pk_shape P)) end).
      destruct (Nat.eq_dec (length mom) (length (pk_shape P))) as [Lm|Lm].
      2: { left. destruct mom_axes as [l|]; [|exfalso; apply Lm; unfold mom, axes_last; now rewrite map_length, seq_length].
           cbn [option_map]. now rewrite (factory_refused l Lm). }
      rewrite (factory_axes P c s HC mom_axes mom eq_refl Lm). cbn [rbind iter_axes ap_axes].
      destruct (params_ndim P c s HC) as [EP L2]. rewrite EP. cbn [iter_axes ap_axes rbind]. left.
      destruct (normalize_axis_index axis (tndim d) (Some (length mom))) as [a|e] eqn:Ea.
      2: { unfold prepare_data. rewrite Ea. cbn [rbind]. now rewrite (normalize_index_err _ _ _ _ Ea). }
      destruct (normalize_axis_tuple (Some (map AInt (Z.of_nat a :: mom))) (tndim d) None false) as [r|e] eqn:Er.
      2: { unfold prepare_data. rewrite Ea. cbn [rbind]. unfold np_moveaxis, moveaxis_order. rewrite Er. cbn [rbind]. now rewrite (normalize_tuple_err _ _ _ _ _ Er). }
      apply tuple_ints in Er. destruct Er as [Er Nr]. inversion Er as [|? b ? M Hb HM]; subst. apply names_of_index in Ea.
      assert (b = a) by (pose proof (names_axis_lt _ _ _ _ Ea); unfold is_axis in Hb; lia). subst b.
      assert (LM : length M = length mom) by (symmetry; eapply Forall2_len; eauto).
      assert (HA : axis_of_moments (Packer unit (map (shape_of d) M) (fun _ => tt) (fun _ _ => 0%Qc)) mom axis a M d).
      { inversion HT; subst. repeat (split; [assumption|]). split; [now rewrite LM|]. split; [exact Nr|reflexivity]. }
      destruct (datas_read _ mom axis a M d HA) as (za & mom' & t' & Ep & Dn & RD). cbv zeta in RD. rewrite Ep. cbn [rbind]. cbv zeta. rewrite Dn.
      destruct (list_eq_dec Nat.eq_dec (map (shape_of d) M) (pk_shape P)) as [EM|EM].
      + rewrite EM, LM, Lm in RD.
        change [(t', za :: axes_last (length (pk_shape P)), shape_of d a :: pk_shape P)]
          with (map fst [((t', za :: axes_last (length (pk_shape P)), shape_of d a :: pk_shape P),
                          (map (shape_of d) (except_nat (seq 0 (tndim d)) (a :: M)), fun p q => tget t' (p ++ q))) : operand_of]).
        match goal with |- c_with _ (gufunc_update _ _ _ (map fst ?ops) _ _ ?f) = _ =>
          assert (U : gufunc_update K P stretch (map fst ops) (c_obj c) (axes_last (mom_ndim P)) f = Raise EValue) end;
          [|unfold mom_ndim in U; unfold c_with; now rewrite U].
        apply update_refused; [constructor; [exact RD|constructor]|].
        intros (loop & B & H). apply NF. exists loop. eexists. split; [|exact H].
        apply (at_datas P R s loop axis mom_axes mom a M (except_nat (seq 0 (tndim d)) (a :: M)) d eq_refl); [|reflexivity|exact B].
        inversion HT; subst. repeat (split; [assumption|]). split; [now rewrite LM|]. split; [exact Nr|exact EM].
      + unfold c_with. change (axes_last (length (pk_shape P))) with (axes_last (mom_ndim P)) at 2.
        rewrite (update_core_refused [(t', za :: axes_last (length (pk_shape P)), shape_of d a :: pk_shape P)] (t', za :: axes_last (length (pk_shape P)), shape_of d a :: pk_shape P)).
        * reflexivity.
        * now left.
        * cbn [fst snd]. intros C EC X. rewrite LM, Lm in RD. destruct RD as (C' & EC' & _ & X' & _). cbn [fst] in *. rewrite EC in EC'. injection EC' as <-.
          rewrite X in X'. injection X' as X'. congruence.
    - unfold c_push_val. destruct (Nat.eqb_spec (S (length y)) (mom_ndim P)) as [Ly|Ly]; cbn [negb]; [|now left]. apply with_error. left.
      assert (EM : map (fun t => last_core t []) (x :: w :: y) = map fst (map (fun t => op_last t (tshape t) []) (x :: w :: y))) by (now rewrite map_map).
      rewrite EM. apply update_refused.
      + apply Forall_forall. intros o Ho. apply in_map_iff in Ho. destruct Ho as (t & <- & _). apply op_last_reads. now rewrite app_nil_r.
      + intros (loop & B & H). rewrite map_map in B. apply NF. exists loop. eexists. split; [|exact H]. apply at_val; assumption.
    - set (G := argument_error (c_push_vals K P R stretch c axis x w y)).
      destruct (argument_error_dec (c_push_vals K P R stretch c axis x w y)) as [D|D]; [exact D|]. exfalso. apply D.
      unfold c_push_vals. apply (prepare_values_misfit (S (mom_ndim P)) axis true x (w :: y) HT). intros [Ly (r & HA)]. apply D.
      assert (Ly' : S (length y) = length (pk_shape P)) by (unfold mom_ndim in Ly; cbn in Ly; lia).
      unfold c_push_vals, mom_ndim. rewrite <- Ly'.
      destruct (prepare_values_reads axis r x (w :: y) HA) as (ux & us & Ep & Ed & Lu & RO). cbn [length] in Ep. rewrite Ep. cbn [rbind]. cbv zeta. rewrite Ed.
      destruct us as [|uw uy]; [discriminate|]. cbn [length] in Lu. assert (LY : length uy = length y) by lia.
      assert (EM : map (fun t => last_core t [dim_from_end x r]) (ux :: uw :: uy)
        = map fst (map (fun p => op_value r (dim_from_end x r) (fst p) (snd p)) (combine (x :: w :: y) (ux :: uw :: uy)))).
      { rewrite map_map. cbn [combine map op_value fst snd]. do 2 f_equal. clear - LY. revert uy LY. induction y as [|t y IH]; intros [|u uy] L; try discriminate; [reflexivity|].
        cbn [combine map op_value fst snd]. f_equal. apply IH. cbn in L. lia. }
      rewrite EM, Ly'. apply with_error. left. apply update_refused; [exact RO|].
      intros (loop & B & H). apply NF. exists loop. eexists. split; [|exact H]. apply (at_vals P R s loop axis r x w y); [exact Ly'|exact HA|].
      rewrite map_map in B. cbn [combine map] in B.
      assert (EL : map (fun p => fst (snd (op_value r (dim_from_end x r) (fst p) (snd p)))) (combine y uy) = map (value_loop r) y).
      { clear - LY. revert uy LY. induction y as [|t y IH]; intros [|u uy] L; try discriminate; [reflexivity|].
        cbn [combine map op_value fst snd]. f_equal. apply IH. cbn in L. lia. }
      rewrite EL in B. exact B.
  Qed.
End Refuse.

(* the default axis of push_datas names a moment axis unless mom_axes is given *)
Theorem push_datas_default_axis_raises : forall {A V} (K : pusher A V) ok P R, values_array K ok P R ->
  forall stretch c s d, holds c s (pk_shape P) -> tensor_ok d ->
  c_push_datas K P stretch c (AInt (-1)) None d = Raise EValue.
Proof.
  intros A V K ok P R VA stretch c s d HC HT. unfold c_push_datas.
  assert (Lm : length (axes_last (length (pk_shape P))) = length (pk_shape P)) by (unfold axes_last; now rewrite map_length, seq_length).
  rewrite (factory_axes P c s HC None _ eq_refl Lm : array_factory false MPNone (ap_ndim (c_params c)) None None = _). cbn [rbind iter_axes ap_axes].
  destruct (params_ndim P c s HC) as [_ L2].
  assert (NA : no_axis (axes_last (length (pk_shape P))) (AInt (-1)) d).
  { intros (a & M & HM & Ha & ND). cbn [names_axis] in Ha. inversion ND as [|? ? Na _]; subst. apply Na.
    destruct L2 as [E|E]; rewrite E in HM; cbn [axes_last seq map] in HM.
    - inversion HM as [|? b ? M' Hb HM']; subst. inversion HM'; subst. left. unfold is_axis in *. cbn in Hb. lia.
    - inversion HM as [|? b ? M' Hb HM']; subst. inversion HM' as [|? b' ? M'' Hb' HM'']; subst. right. left. unfold is_axis in *. cbn in Hb'. lia. }
  unfold prepare_data. destruct (normalize_axis_index (AInt (-1)) (tndim d) (Some (length (axes_last (length (pk_shape P)))))) as [a|e] eqn:Ea; cbn [rbind].
  - unfold np_moveaxis, moveaxis_order. now rewrite (no_axis_core _ _ _ _ _ NA Ea eq_refl).
  - now rewrite (normalize_index_err _ _ _ _ Ea).
Qed.
