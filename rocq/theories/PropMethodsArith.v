(* Arithmetic of objects of class CentralMomentsArray (C115, C116). *)
From Verif Require Import Base BaseLemmas ModelPush ModelKernels ModelIndex ModelAccum ModelAxes ModelState ModelParams ModelNd ModelWrap ModelMethods
  Spec SpecAxes SpecNd SpecMethods Laws ProofKernels ProofSpec ProofAxes ProofArrays ProofMulti ProofNd ProofNdVals Checks PropReduce PropNd PropNdVals PropNdUse PropWrap
  ProofMethods PropMethods PropMethodsUse PropMethodsRefuse.

(* objects with the same moment arrays at every position are equal *)
Lemma same_object {A V} (K : pusher A V) ok P : moment_array K ok P -> forall c c' s, holds c s (pk_shape P) -> holds c' s (pk_shape P) ->
  (forall p, valid s p -> mom_cell P (c_obj c) p = mom_cell P (c_obj c') p) -> c = c'.
Proof.
  intros MA [t q] [t' q'] s (T1 & S1 & _ & _ & P1) (T2 & S2 & _ & _ & P2) H. unfold c_shape in *. cbn [c_obj c_params] in *. f_equal; [|congruence].
  apply tensor_ext; [assumption|assumption|congruence|]. intros idx V1. rewrite S1 in V1. apply Forall2_app_inv_l in V1. destruct V1 as (p & m & Vp & Vm & ->).
  specialize (H p Vp). apply (f_equal (fun a => pk_unpack P a m)) in H. unfold mom_cell in H.
  now rewrite (ma_unpack_pack K ok P MA (fun m => tget t (p ++ m)) m Vm), (ma_unpack_pack K ok P MA (fun m => tget t' (p ++ m)) m Vm) in H.
Qed.

Lemma pack_mul {A V} (K : pusher A V) ok P : moment_array K ok P -> forall f k,
  pk_pack P (fun m => if forallb (Nat.eqb 0) m then (f m * k)%Qc else f m) = acc_mul K (pk_pack P f) k.
Proof.
  intros MA f k. destruct MA as [nmax n H|nmax n0 n1 H0 H1]; unfold acc_mul.
  - cbn [packer1 pk_pack pusher1 p_setwt p_wt seq map upd forallb Nat.eqb andb getq nth]. f_equal. apply map_ext_in. intros i Hi. apply in_seq in Hi.
    destruct i; [lia|reflexivity].
  - cbn [packer2 pk_pack pusher2 p_setwt p_wt]. unfold upd2, get2. cbn [seq map upd nth getq forallb Nat.eqb andb]. f_equal; [f_equal|].
    + apply map_ext_in. intros j Hj. apply in_seq in Hj. destruct j; [lia|reflexivity].
    + apply map_ext_in. intros i Hi. apply in_seq in Hi. destruct i; [lia|]. reflexivity.
Qed.

Lemma acc_mul_phi {A V I} {K : pusher A V} (L : laws K I) a k : l_wf L a ->
  l_wf L (acc_mul K a k) /\ p_wt K (acc_mul K a k) = (p_wt K a * k)%Qc /\ forall i, phi L (acc_mul K a k) i = (k * phi L a i)%Qc.
Proof.
  intros W. unfold acc_mul. split; [now apply (l_wf_setwt _ _ L)|]. split; [now apply (l_wt_setwt _ _ L)|]. intros i. unfold phi.
  rewrite (l_wt_setwt _ _ L) by exact W. rewrite (l_raw_setwt _ _ L). ring.
Qed.
Lemma acc_mul_add {A V} (K : pusher A V) ok : moment_kernel K ok -> forall a b k, ok a -> ok b -> k <> 0%Qc ->
  acc_add K (acc_mul K a k) (acc_mul K b k) = option_map (fun r => acc_mul K r k) (acc_add K a b).
Proof.
  intros HK a b k Ha Hb Nk. destruct (kernel_laws K ok HK) as (I & L & E). apply E in Ha. apply E in Hb. unfold acc_add.
  destruct (acc_mul_phi L a k Ha) as (W1 & T1 & F1). destruct (acc_mul_phi L b k Hb) as (W2 & T2 & F2).
  destruct (Qc_eq_dec (p_wt K b) 0) as [Z|N].
  - rewrite (l_push_zero _ _ L b a Z), (l_push_zero _ _ L) by (rewrite T2, Z; ring). reflexivity.
  - assert (N2 : p_wt K (acc_mul K b k) <> 0%Qc) by (rewrite T2; now apply Qc_mul_nz).
    destruct (Qc_eq_dec (p_wt K a + p_wt K b) 0) as [Z|N3].
    + rewrite (l_push_none _ _ L b a Hb Ha N Z). cbn [option_map]. apply (l_push_none _ _ L); auto. rewrite T1, T2.
      replace (p_wt K a * k + p_wt K b * k)%Qc with ((p_wt K a + p_wt K b) * k)%Qc by ring. rewrite Z. ring.
    + destruct (push_ok L b a Hb Ha (fun _ => N3)) as (r & Er & Wr & Tr & Pr & _). rewrite Er. cbn [option_map].
      assert (N4 : (p_wt K (acc_mul K a k) + p_wt K (acc_mul K b k) <> 0)%Qc).
      { rewrite T1, T2. replace (p_wt K a * k + p_wt K b * k)%Qc with ((p_wt K a + p_wt K b) * k)%Qc by ring. now apply Qc_mul_nz. }
      destruct (push_ok L _ _ W2 W1 (fun _ => N4)) as (r' & Er' & Wr' & Tr' & Pr' & _). rewrite Er'. f_equal.
      destruct (acc_mul_phi L r k Wr) as (W3 & T3 & F3).
      apply (phi_inj L); auto; [rewrite Tr'; exact N4|]. intros i Hi. rewrite Pr', F1, F2, F3, Pr by exact Hi. ring.
Qed.
Lemma acc_add_self {A V} (K : pusher A V) ok : moment_kernel K ok -> forall a, ok a -> acc_add K a a = Some (acc_mul K a (1 + 1)%Qc).
Proof.
  intros HK a Ha. destruct (kernel_laws K ok HK) as (I & L & E). apply E in Ha. unfold acc_add.
  destruct (acc_mul_phi L a (1 + 1)%Qc Ha) as (W1 & T1 & F1).
  destruct (Qc_eq_dec (p_wt K a) 0) as [Z|N].
  - rewrite (l_push_zero _ _ L a a Z). f_equal. unfold acc_mul. rewrite <- (l_setwt_id _ _ L a Ha) at 1. f_equal. rewrite Z. ring.
  - assert (N2 : (p_wt K a + p_wt K a <> 0)%Qc).
    { replace (p_wt K a + p_wt K a)%Qc with (p_wt K a * (1 + 1))%Qc by ring. apply Qc_mul_nz; [exact N|]. apply qc_neq. reflexivity. }
    destruct (push_ok L a a Ha Ha (fun _ => N2)) as (r & Er & Wr & Tr & Pr & _). rewrite Er. f_equal.
    apply (phi_inj L); auto; [rewrite Tr; exact N2|]. intros i Hi. rewrite Pr, F1 by exact Hi. ring.
Qed.
Lemma acc_sub_mul {A V} (K : pusher A V) ok : moment_kernel K ok -> forall a b, ok b -> acc_sub K a b = acc_add K a (acc_mul K b (-(1))%Qc).
Proof. intros HK a b Hb. destruct (kernel_laws K ok HK) as (I & L & E). apply E in Hb. unfold acc_sub, acc_add, acc_mul. now apply (l_scale _ _ L). Qed.

Section Arith.
  Context {A V : Type} (K : pusher A V) (ok : A -> Prop) (P : packer A) (R : reader V).
  Hypothesis VA : values_array K ok P R.
  Let MA : moment_array K ok P := va_array K ok P R VA.
  Context (stretch : bool).
  Local Notation obj c s := (holds c s (pk_shape P)).
  Local Notation at_ c p := (mom_cell P (c_obj c) p).

  (* the result of a combination by positions *)
  Definition combined (op : list nat -> option A) (s : list nat) (r : res cmarray) : Prop :=
    match r with
    | Ok c => obj c s /\ forall p, valid s p -> op p = Some (at_ c p)
    | Raise e => e = EZeroDiv /\ exists p, valid s p /\ op p = None
    end.
  Lemma combined_unique op op' s r r' : combined op s r -> combined op' s r' -> (forall p, valid s p -> op p = op' p) -> r = r'.
  Proof.
    intros H H' E. destruct r as [c|e], r' as [c'|e']; cbn [combined] in *.
    - f_equal. apply (same_object K ok P MA c c' s); [tauto|tauto|]. intros p Vp. destruct H as [_ H], H' as [_ H']. specialize (H p Vp). specialize (H' p Vp).
      rewrite E in H by exact Vp. congruence.
    - exfalso. destruct H as [_ H], H' as [_ (p & Vp & H')]. specialize (H p Vp). rewrite E in H by exact Vp. congruence.
    - exfalso. destruct H' as [_ H'], H as [_ (p & Vp & H)]. specialize (H' p Vp). rewrite <- E in H' by exact Vp. congruence.
    - destruct H as [-> _], H' as [-> _]. reflexivity.
  Qed.
  Lemma check_other_ok c o s so : obj c s -> obj o so -> c_check_other c o = Ok tt.
  Proof.
    intros H1 H2. unfold c_check_other. rewrite (holds_mom_shape _ _ _ H2). cbn [rbind]. rewrite (holds_mom_shape _ _ _ H1). cbn [rbind].
    unfold raise_if_wrong_mom_shape. now rewrite nats_eqb_refl.
  Qed.

  (* C115: + and - of objects act position by position; the right operand is
     stretched to the value shape of the left one *)
  Theorem add_objects c o s so : obj c s -> obj o so -> broadcasts [so; s] s ->
    combined (fun p => acc_add K (at_ c p) (at_ o (stretched so p))) s (c_add K P stretch c o).
  Proof.
    intros H1 H2 B. unfold c_add. rewrite (check_other_ok c o s so H1 H2). cbn [rbind].
    pose proof (push_call_by_positions K ok P R VA stretch c s s H1 (or_intror eq_refl) (CallData (c_obj o) None) _
      (at_data P R s s (c_obj o) so (proj1 H2) (proj1 (proj2 H2)) B)) as X. cbn [run_call] in X. unfold runs_at in X. unfold combined.
    assert (E : forall p, valid s p -> run_ops K (map (fun l => PushData (mom_cell P (c_obj o) (stretched so l))) (landing s s p)) (at_ c p)
      = acc_add K (at_ c p) (at_ o (stretched so p))).
    { intros p Vp. rewrite (landing_self _ _ Vp). cbn [map]. unfold run_ops. cbn [foldM run_op]. unfold acc_add. now destruct (p_push_data K _ _). }
    destruct (c_push_data K P stretch c (c_obj o) None) as [r|e].
    - destruct X as [X1 X2]. split; [exact X1|]. intros p Vp. rewrite <- (E p Vp). now apply X2.
    - destruct X as [X1 (p & Vp & X2)]. split; [exact X1|]. exists p. split; [exact Vp|]. now rewrite <- (E p Vp).
  Qed.
  Lemma scalar_broadcasts so s : broadcasts [so; s] s -> broadcasts [so; []; s] s.
  Proof.
    intros (B1 & B2 & B3). split; [|split].
    - intros l [<-|[<-|[<-|[]]]]; [apply B1; cbn; auto|cbn; lia|lia].
    - destruct B2 as [B2|(l & Hl & E)]; [now left|right]. exists l. split; [|exact E]. destruct Hl as [<-|[<-|[]]]; cbn; auto.
    - intros k Hk. destruct (B3 k Hk) as [C1 C2]. split.
      + intros l [<-|[<-|[<-|[]]]]; [apply C1; cbn; auto|right; now destruct k|now left].
      + destruct C2 as [C2|(l & Hl & E)]; [now left|right]. exists l. split; [|exact E]. destruct Hl as [<-|[<-|[]]]; cbn; auto.
  Qed.
  Theorem subtract_objects c o s so : obj c s -> obj o so -> broadcasts [so; s] s ->
    combined (fun p => acc_sub K (at_ c p) (at_ o (stretched so p))) s (c_sub K P stretch c o).
  Proof.
    intros H1 H2 B. unfold c_sub. rewrite (check_other_ok c o s so H1 H2). cbn [rbind]. set (m1 := Tensor [] [(-(1))%Qc]).
    assert (T1 : tensor_ok m1) by reflexivity.
    pose proof (push_call_by_positions K ok P R VA stretch c s s H1 (or_intror eq_refl) (CallData (c_obj o) (Some m1)) _
      (at_scale P R s s (c_obj o) so m1 (proj1 H2) (proj1 (proj2 H2)) T1 (scalar_broadcasts so s B))) as X. cbn [run_call] in X. unfold runs_at in X. unfold combined.
    assert (E : forall p, valid s p -> run_ops K (map (fun l => PushDataScale (mom_cell P (c_obj o) (stretched so l)) (value_on m1 l)) (landing s s p)) (at_ c p)
      = acc_sub K (at_ c p) (at_ o (stretched so p))).
    { intros p Vp. rewrite (landing_self _ _ Vp). cbn [map]. unfold run_ops. cbn [foldM run_op]. unfold acc_sub, value_on, m1. cbn [tshape stretched combine map]. unfold tget. cbn.
      now destruct (p_push_data_scale K _ _ _). }
    destruct (c_push_data K P stretch c (c_obj o) (Some m1)) as [r|e].
    - destruct X as [X1 X2]. split; [exact X1|]. intros p Vp. rewrite <- (E p Vp). now apply X2.
    - destruct X as [X1 (p & Vp & X2)]. split; [exact X1|]. exists p. split; [exact Vp|]. now rewrite <- (E p Vp).
  Qed.
  (* C116: multiplication by a number changes only the weights *)
  Theorem multiply_object c s k : obj c s ->
    obj (c_mul P c k) s /\ forall p, valid s p -> at_ (c_mul P c k) p = acc_mul K (at_ c p) k.
  Proof.
    intros H. destruct H as (T1 & S1 & L1 & F1 & P1). unfold c_shape in S1. split.
    - unfold holds, c_mul, c_shape. cbn [c_obj c_params]. split; [apply tabulate_ok|]. split; [cbn [tabulate tshape]; exact S1|]. auto.
    - intros p Vp. unfold mom_cell, c_mul, c_shape. cbn [c_obj].
      assert (E : forall m, valid (pk_shape P) m -> tget (tabulate (tshape (c_obj c)) (fun idx => if forallb (Nat.eqb 0) (skipn (tndim (c_obj c) - mom_ndim P) idx) then (tget (c_obj c) idx * k)%Qc else tget (c_obj c) idx)) (p ++ m)
        = if forallb (Nat.eqb 0) m then (tget (c_obj c) (p ++ m) * k)%Qc else tget (c_obj c) (p ++ m)).
      { intros m Vm. rewrite tget_tabulate by (rewrite S1; now apply Forall2_app).
        replace (skipn (tndim (c_obj c) - mom_ndim P) (p ++ m)) with m; [reflexivity|].
        unfold tndim, mom_ndim. rewrite S1, app_length. replace (length s + length (pk_shape P) - length (pk_shape P)) with (length p) by (rewrite (valid_length _ _ Vp); lia).
        rewrite skipn_app, skipn_all, Nat.sub_diag. reflexivity. }
      rewrite (proj1 (ma_packer _ _ _ MA) _ _ E). set (f := fun m => tget (c_obj c) (p ++ m)).
      change (pk_pack P (fun m => if forallb (Nat.eqb 0) m then (f m * k)%Qc else f m) = acc_mul K (pk_pack P f) k).
      apply (pack_mul K ok P MA).
  Qed.

  Lemma cell_ok t p : ok (mom_cell P t p).
  Proof. apply (ma_pack_ok _ _ _ MA). Qed.
  Lemma self_broadcasts (s : list nat) : broadcasts [s; s] s.
  Proof.
    split; [intros l [<-|[<-|[]]]; lia|]. split; [right; exists s; cbn; auto|]. intros k Hk. split; [intros l [<-|[<-|[]]]; now left|].
    right. exists s. cbn. auto.
  Qed.
  Lemma add_same c o s : obj c s -> obj o s -> combined (fun p => acc_add K (at_ c p) (at_ o p)) s (c_add K P stretch c o).
  Proof.
    intros H1 H2. pose proof (add_objects c o s s H1 H2 (self_broadcasts s)) as X. unfold combined in *. destruct (c_add K P stretch c o) as [r|e].
    - destruct X as [X1 X2]. split; [exact X1|]. intros p Vp. rewrite <- (X2 p Vp). now rewrite (stretched_self s p Vp).
    - destruct X as [X1 (p & Vp & X2)]. split; [exact X1|]. exists p. split; [exact Vp|]. now rewrite (stretched_self s p Vp) in X2.
  Qed.
  Lemma sub_same c o s : obj c s -> obj o s -> combined (fun p => acc_sub K (at_ c p) (at_ o p)) s (c_sub K P stretch c o).
  Proof.
    intros H1 H2. pose proof (subtract_objects c o s s H1 H2 (self_broadcasts s)) as X. unfold combined in *. destruct (c_sub K P stretch c o) as [r|e].
    - destruct X as [X1 X2]. split; [exact X1|]. intros p Vp. rewrite <- (X2 p Vp). now rewrite (stretched_self s p Vp).
    - destruct X as [X1 (p & Vp & X2)]. split; [exact X1|]. exists p. split; [exact Vp|]. now rewrite (stretched_self s p Vp) in X2.
  Qed.

  (* C115: for objects of one shape the usual laws *)
  Theorem add_objects_commutative c o s : obj c s -> obj o s ->
    (forall p, valid s p -> clean K (at_ c p) /\ clean K (at_ o p) /\
       (p_wt K (at_ c p) <> 0 -> p_wt K (at_ o p) <> 0 -> p_wt K (at_ c p) + p_wt K (at_ o p) <> 0)%Qc) ->
    c_add K P stretch c o = c_add K P stretch o c.
  Proof.
    intros H1 H2 H. apply (combined_unique _ _ s _ _ (add_same c o s H1 H2) (add_same o c s H2 H1)). intros p Vp. destruct (H p Vp) as (C1 & C2 & C3).
    apply (add_commutative K ok (ma_kernel _ _ _ MA)); auto; apply cell_ok.
  Qed.
  Theorem add_objects_associative a b c s : obj a s -> obj b s -> obj c s ->
    (forall p, valid s p -> clean K (at_ a p) /\ clean K (at_ b p) /\ clean K (at_ c p) /\
       (0 <= p_wt K (at_ a p) /\ 0 <= p_wt K (at_ b p) /\ 0 <= p_wt K (at_ c p))%Qc) ->
    exists ab bc r, c_add K P stretch a b = Ok ab /\ c_add K P stretch b c = Ok bc /\
      c_add K P stretch ab c = Ok r /\ c_add K P stretch a bc = Ok r.
  Proof.
    intros Ha Hb Hc H.
    assert (AS : forall p, valid s p -> exists ab bc r, acc_add K (at_ a p) (at_ b p) = Some ab /\ acc_add K (at_ b p) (at_ c p) = Some bc /\
      acc_add K ab (at_ c p) = Some r /\ acc_add K (at_ a p) bc = Some r).
    { intros p Vp. destruct (H p Vp) as (C1 & C2 & C3 & W1 & W2 & W3). apply (add_associative K ok (ma_kernel _ _ _ MA)); auto; apply cell_ok. }
    assert (G : forall x y, obj x s -> obj y s -> (forall p, valid s p -> acc_add K (at_ x p) (at_ y p) <> None) ->
      exists r, c_add K P stretch x y = Ok r /\ obj r s /\ forall p, valid s p -> acc_add K (at_ x p) (at_ y p) = Some (at_ r p)).
    { intros x y Hx Hy N. pose proof (add_same x y s Hx Hy) as X. unfold combined in X. destruct (c_add K P stretch x y) as [r|e].
      - exists r. tauto.
      - exfalso. destruct X as [_ (p & Vp & X)]. exact (N p Vp X). }
    destruct (G a b Ha Hb) as (ab & E1 & O1 & X1). { intros p Vp. destruct (AS p Vp) as (? & ? & ? & E & _). congruence. }
    destruct (G b c Hb Hc) as (bc & E2 & O2 & X2). { intros p Vp. destruct (AS p Vp) as (? & ? & ? & _ & E & _). congruence. }
    assert (AS' : forall p, valid s p -> exists r, acc_add K (at_ ab p) (at_ c p) = Some r /\ acc_add K (at_ a p) (at_ bc p) = Some r).
    { intros p Vp. destruct (AS p Vp) as (x & y & r & A1 & A2 & A3 & A4). rewrite (X1 p Vp) in A1. rewrite (X2 p Vp) in A2. injection A1 as <-. injection A2 as <-. eauto. }
    destruct (G ab c O1 Hc) as (r & E3 & O3 & X3). { intros p Vp. destruct (AS' p Vp) as (? & E & _). congruence. }
    exists ab, bc, r. repeat (split; [assumption|]). rewrite <- E3. symmetry.
    apply (combined_unique _ _ s _ _ (add_same ab c s O1 Hc) (add_same a bc s Ha O2)). intros p Vp. destruct (AS' p Vp) as (? & A1 & A2). congruence.
  Qed.
  Theorem subtract_object_undoes_add c o s : obj c s -> obj o s ->
    (forall p, valid s p -> (p_wt K (at_ c p) <> 0 /\ p_wt K (at_ c p) + p_wt K (at_ o p) <> 0)%Qc) ->
    exists r, c_add K P stretch c o = Ok r /\ c_sub K P stretch r o = Ok c.
  Proof.
    intros H1 H2 H.
    assert (U : forall p, valid s p -> exists r, acc_add K (at_ c p) (at_ o p) = Some r /\ acc_sub K r (at_ o p) = Some (at_ c p)).
    { intros p Vp. destruct (H p Vp) as [N1 N2]. apply (subtract_undoes_add K ok (ma_kernel _ _ _ MA)); auto; apply cell_ok. }
    pose proof (add_same c o s H1 H2) as X. unfold combined in X. destruct (c_add K P stretch c o) as [r|e].
    - destruct X as [Or X]. exists r. split; [reflexivity|]. apply (combined_unique _ (fun p => Some (at_ c p)) s _ _ (sub_same r o s Or H2)).
      + split; [exact H1|]. reflexivity.
      + intros p Vp. destruct (U p Vp) as (q & U1 & U2). rewrite (X p Vp) in U1. injection U1 as <-. exact U2.
    - exfalso. destruct X as [_ (p & Vp & X)]. destruct (U p Vp) as (q & U1 & _). congruence.
  Qed.
  Theorem add_zeros c s : obj c s -> exists z, c_zeros (IIter (map (fun n => (Z.of_nat n - 1)%Z) (pk_shape P))) s = Ok z /\
    c_add K P stretch c z = Ok c /\ ((forall p, valid s p -> clean K (at_ c p)) -> c_add K P stretch z c = Ok c).
  Proof.
    intros H. pose proof H as (_ & _ & L & F & _). destruct (zeros_object (pk_shape P) s L F) as (z & Ez & Oz & Z). exists z. split; [exact Ez|].
    assert (ZC : forall p, valid s p -> at_ z p = p_zero K).
    { intros p Vp. apply (zero_cell K ok P MA). intros m Vm. apply Z. now apply Forall2_app. }
    assert (OC : combined (fun p => Some (at_ c p)) s (Ok c)) by (split; [exact H|reflexivity]). split.
    - apply (combined_unique _ _ s _ _ (add_same c z s H Oz) OC). intros p Vp. rewrite (ZC p Vp). apply (add_zero_right K ok (ma_kernel _ _ _ MA)).
    - intros C. apply (combined_unique _ _ s _ _ (add_same z c s Oz H) OC). intros p Vp. rewrite (ZC p Vp). apply (add_zero_left K ok (ma_kernel _ _ _ MA)); auto. apply cell_ok.
  Qed.

  (* C116 *)
  Theorem add_object_to_itself c s : obj c s -> c_add K P stretch c c = Ok (c_mul P c (1 + 1)%Qc).
  Proof.
    intros H. destruct (multiply_object c s (1 + 1)%Qc H) as [Om Em].
    apply (combined_unique _ (fun p => Some (at_ (c_mul P c (1 + 1)%Qc) p)) s _ _ (add_same c c s H H)); [split; [exact Om|reflexivity]|].
    intros p Vp. rewrite (Em p Vp). apply (acc_add_self K ok (ma_kernel _ _ _ MA)), cell_ok.
  Qed.
  Theorem subtract_is_add_of_negative c o s so : obj c s -> obj o so -> broadcasts [so; s] s ->
    c_sub K P stretch c o = c_add K P stretch c (c_mul P o (-(1))%Qc).
  Proof.
    intros H1 H2 B. destruct (multiply_object o so (-(1))%Qc H2) as [Om Em].
    apply (combined_unique _ _ s _ _ (subtract_objects c o s so H1 H2 B) (add_objects c _ s so H1 Om B)).
    intros p Vp. rewrite Em by (eapply stretched_valid; [exact B|now left|exact Vp]). apply (acc_sub_mul K ok (ma_kernel _ _ _ MA)), cell_ok.
  Qed.
  Theorem multiply_distributes_over_add c o s so k : obj c s -> obj o so -> broadcasts [so; s] s -> k <> 0%Qc ->
    c_add K P stretch (c_mul P c k) (c_mul P o k) = rmap (fun r => c_mul P r k) (c_add K P stretch c o).
  Proof.
    intros H1 H2 B Nk. destruct (multiply_object c s k H1) as [Oc Ec]. destruct (multiply_object o so k H2) as [Oo Eo].
    pose proof (add_objects c o s so H1 H2 B) as X.
    assert (Y : combined (fun p => option_map (fun r => acc_mul K r k) (acc_add K (at_ c p) (at_ o (stretched so p)))) s (rmap (fun r => c_mul P r k) (c_add K P stretch c o))).
    { unfold combined in *. destruct (c_add K P stretch c o) as [r|e]; cbn [rmap rbind].
      - destruct X as [Or X]. destruct (multiply_object r s k Or) as [Om Em]. split; [exact Om|]. intros p Vp. rewrite (X p Vp). cbn [option_map]. now rewrite (Em p Vp).
      - destruct X as [Xe (p & Vp & X)]. split; [exact Xe|]. exists p. split; [exact Vp|]. now rewrite X. }
    apply (combined_unique _ _ s _ _ (add_objects _ _ s so Oc Oo B) Y). intros p Vp. rewrite (Ec p Vp).
    rewrite Eo by (eapply stretched_valid; [exact B|now left|exact Vp]). apply (acc_mul_add K ok (ma_kernel _ _ _ MA)); auto; apply cell_ok.
  Qed.
  Theorem multiply_twice c s k k' : obj c s -> c_mul P (c_mul P c k) k' = c_mul P c (k * k')%Qc /\ c_mul P c 1%Qc = c.
  Proof.
    intros H. destruct (multiply_object c s k H) as [O1 E1]. destruct (multiply_object _ s k' O1) as [O2 E2].
    destruct (multiply_object c s (k * k')%Qc H) as [O3 E3]. destruct (multiply_object c s 1%Qc H) as [O4 E4].
    destruct (kernel_laws K ok (ma_kernel _ _ _ MA)) as (I & L & E). split.
    - apply (same_object K ok P MA _ _ s O2 O3). intros p Vp. rewrite (E2 p Vp), (E1 p Vp), (E3 p Vp). unfold acc_mul.
      pose proof (proj2 (E _) (cell_ok (c_obj c) p)) as W || pose proof (proj1 (E _) (cell_ok (c_obj c) p)) as W.
      rewrite (l_wt_setwt _ _ L) by exact W. rewrite (l_setwt_setwt _ _ L) by exact W. f_equal. ring.
    - apply (same_object K ok P MA _ _ s O4 H). intros p Vp. rewrite (E4 p Vp). unfold acc_mul. rewrite Qcmult_1_r. apply (l_setwt_id _ _ L).
      (apply (proj2 (E _)); apply cell_ok) || (apply (proj1 (E _)); apply cell_ok).
  Qed.
  (* objects with other moments are refused *)
  Theorem add_checks_moments c o s so ms ms' : holds c s ms -> holds o so ms' -> ms <> ms' ->
    c_add K P stretch c o = Raise EValue /\ c_sub K P stretch c o = Raise EValue.
  Proof.
    intros H1 H2 N. unfold c_add, c_sub, c_check_other. rewrite (holds_mom_shape _ _ _ H2). cbn [rbind]. rewrite (holds_mom_shape _ _ _ H1). cbn [rbind].
    unfold raise_if_wrong_mom_shape. destruct (nats_eqb ms' ms) eqn:E; [apply nats_eqb_eq in E; congruence|]. split; reflexivity.
  Qed.
End Arith.
