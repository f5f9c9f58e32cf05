(* Properties of options, the shared generator, the choice of parallel kernels,
   dtype selection and argument validation (C49-C51, C53, C54, C64). *)
From Coq Require Import String.
From Verif Require Import Base ModelIndex ModelState.
Local Open Scope string_scope.

(* ======================= options ========================================== *)

Lemma dget_dset : forall d k k' v, dget k (dset k' v d) = if String.eqb k k' then Some v else dget k d.
Proof.
  induction d as [|[a w] d IH]; intros k k' v; simpl.
  - reflexivity.
  - destruct (String.eqb k' a) eqn:E; simpl.
    + apply String.eqb_eq in E. subst a. destruct (String.eqb k k'); reflexivity.
    + rewrite IH. destruct (String.eqb k a) eqn:E1; [|reflexivity].
      apply String.eqb_eq in E1. subst a.
      destruct (String.eqb k k') eqn:E2; [|reflexivity].
      apply String.eqb_eq in E2. subst k'. rewrite String.eqb_refl in E. discriminate.
Qed.

Lemma dget_none : forall d k, dget k d = None <-> ~ In k (map fst d).
Proof.
  induction d as [|[a w] d IH]; intros k; simpl.
  - tauto.
  - destruct (String.eqb k a) eqn:E.
    + apply String.eqb_eq in E. subst a. split; [discriminate|tauto].
    + apply String.eqb_neq in E. rewrite IH. split; [intros H [H1|H1]; congruence|tauto].
Qed.

Lemma dset_keys : forall d k v, In k (map fst d) -> map fst (dset k v d) = map fst d.
Proof.
  induction d as [|[a w] d IH]; intros k v H; simpl in *.
  - tauto.
  - destruct (String.eqb k a) eqn:E; simpl; [reflexivity|].
    apply String.eqb_neq in E. rewrite IH; [reflexivity|]. destruct H; congruence.
Qed.
Lemma dset_keys_new : forall d k v, ~ In k (map fst d) -> map fst (dset k v d) = (map fst d ++ [k])%list.
Proof.
  induction d as [|[a w] d IH]; intros k v H; simpl in *.
  - reflexivity.
  - destruct (String.eqb k a) eqn:E; simpl.
    + apply String.eqb_eq in E. subst. tauto.
    + rewrite IH by tauto. reflexivity.
Qed.

Lemma dget_in : forall d k v, NoDup (map fst d) -> In (k, v) d -> dget k d = Some v.
Proof.
  induction d as [|[a w] d IH]; intros k v ND H; simpl in *; [tauto|].
  inversion ND as [|? ? N1 N2]; subst.
  destruct H as [H|H].
  - inversion H; subst. rewrite String.eqb_refl. reflexivity.
  - destruct (String.eqb k a) eqn:E; [|auto].
    apply String.eqb_eq in E. subst a. exfalso. apply N1. apply (in_map fst) in H. exact H.
Qed.
Lemma dget_some_in : forall d k v, dget k d = Some v -> In (k, v) d.
Proof.
  induction d as [|[a w] d IH]; intros k v H; simpl in *; [discriminate|].
  destruct (String.eqb k a) eqn:E.
  - apply String.eqb_eq in E. inversion H; subst. auto.
  - auto.
Qed.

Lemma dict_ext : forall d1 d2, NoDup (map fst d1) -> map fst d1 = map fst d2 ->
  (forall k, dget k d1 = dget k d2) -> d1 = d2.
Proof.
  induction d1 as [|[a v] d1 IH]; intros [|[b w] d2] ND K G; simpl in *; try discriminate.
  - reflexivity.
  - inversion K; subst b. inversion ND as [|? ? N1 N2]; subst.
    pose proof (G a) as Ga. rewrite String.eqb_refl in Ga. inversion Ga; subst w.
    f_equal. apply IH; auto. intros k. specialize (G k).
    destruct (String.eqb k a) eqn:E; [|exact G].
    apply String.eqb_eq in E. subst k.
    destruct (dget_none d1 a) as [_ Z1]. destruct (dget_none d2 a) as [_ Z2].
    rewrite Z1 by exact N1. rewrite Z2; [reflexivity|]. rewrite <- H1. exact N1.
Qed.

Lemma dupdate_keys : forall new d, incl (map fst new) (map fst d) -> map fst (dupdate d new) = map fst d.
Proof.
  unfold dupdate. induction new as [|[k v] new IH]; intros d H; simpl; [reflexivity|].
  assert (K : In k (map fst d)) by (apply H; left; reflexivity).
  rewrite IH.
  - apply dset_keys, K.
  - rewrite dset_keys by exact K. intros x Hx. apply H. right. exact Hx.
Qed.
Lemma dupdate_notin : forall new d k, ~ In k (map fst new) -> dget k (dupdate d new) = dget k d.
Proof.
  unfold dupdate. induction new as [|[a v] new IH]; intros d k H; simpl in *; [reflexivity|].
  rewrite IH by tauto. rewrite dget_dset.
  destruct (String.eqb k a) eqn:E; [|reflexivity]. apply String.eqb_eq in E. subst. tauto.
Qed.
Lemma dupdate_in : forall new d k v, NoDup (map fst new) -> In (k, v) new -> dget k (dupdate d new) = Some v.
Proof.
  unfold dupdate. induction new as [|[a w] new IH]; intros d k v ND H; simpl in *; [tauto|].
  inversion ND as [|? ? N1 N2]; subst. destruct H as [H|H].
  - inversion H; subst. fold (dupdate (dset k v d) new). rewrite dupdate_notin by exact N1.
    rewrite dget_dset, String.eqb_refl. reflexivity.
  - auto.
Qed.

(* the loop remembers the current values of exactly the given keys *)
Lemma loop_old : forall kw opts old old', NoDup (map fst old ++ map fst kw)%list ->
  set_options_loop opts kw old = Ok old' ->
  map fst old' = (map fst old ++ map fst kw)%list /\ incl (map fst kw) (map fst opts) /\
  (forall k, In k (map fst kw) -> dget k old' = dget k opts) /\
  (forall k, ~ In k (map fst kw) -> dget k old' = dget k old).
Proof.
  induction kw as [|[a v] kw IH]; intros opts old old' ND H; simpl in *.
  - inversion H; subst. rewrite app_nil_r. repeat split; auto.
    + intros x [].
    + intros k [].
  - destruct (dget a opts) as [cur|] eqn:G; [|discriminate].
    destruct (validates a v); [|discriminate].
    assert (Na : ~ In a (map fst old ++ map fst kw)) by (apply NoDup_remove_2; exact ND).
    assert (Nold : ~ In a (map fst old)) by (intro; apply Na; apply in_or_app; auto).
    assert (Nkw : ~ In a (map fst kw)) by (intro; apply Na; apply in_or_app; auto).
    assert (K : map fst (dset a cur old) = (map fst old ++ [a])%list) by (apply dset_keys_new; auto).
    destruct (IH opts (dset a cur old) old') as (K1 & I1 & G1 & G2); auto.
    { rewrite K, <- app_assoc. exact ND. }
    repeat split.
    + rewrite K1, K, <- app_assoc. reflexivity.
    + intros x [Hx|Hx]; [subst x|auto].
      destruct (in_dec string_dec a (map fst opts)) as [|N]; [assumption|].
      apply dget_none in N. congruence.
    + intros k [Hk|Hk]; [subst k|auto]. rewrite G2 by exact Nkw. rewrite dget_dset, String.eqb_refl. auto.
    + intros k Hk. rewrite G2 by tauto. rewrite dget_dset.
      destruct (String.eqb k a) eqn:E; [|reflexivity]. apply String.eqb_eq in E. subst. tauto.
Qed.

Lemma init_ok : forall opts kw o old, NoDup (map fst kw) -> set_options_init opts kw = (o, Ok old) ->
  map fst old = map fst kw /\ incl (map fst kw) (map fst opts) /\ o = dupdate opts kw /\
  (forall k, In k (map fst kw) -> dget k old = dget k opts).
Proof.
  unfold set_options_init. intros opts kw o old ND H.
  destruct (set_options_loop opts kw []) as [old'|e] eqn:E; inversion H; subst.
  destruct (loop_old kw opts [] old) as (K & I & G & _); auto.
Qed.

(* keyword arguments have distinct names, everywhere in a program *)
Fixpoint kwargs_wf (p : oprog) : Prop :=
  match p with
  | OSkip | OFail => True
  | OSeq p q => kwargs_wf p /\ kwargs_wf q
  | OTry p => kwargs_wf p
  | OSet kw => NoDup (map fst kw)
  | OWith kw b => NoDup (map fst kw) /\ kwargs_wf b
  end.
(* set_options only in with statements *)
Fixpoint only_contexts (p : oprog) : Prop :=
  match p with
  | OSkip | OFail => True
  | OSeq p q => only_contexts p /\ only_contexts q
  | OTry p => only_contexts p
  | OSet _ => False
  | OWith _ b => only_contexts b
  end.

Lemma init_fail : forall opts kw o e, set_options_init opts kw = (o, Raise e) -> o = opts.
Proof.
  unfold set_options_init. intros opts kw o e H. destruct (set_options_loop opts kw []); inversion H; auto.
Qed.

Lemma orun_keys : forall p opts, kwargs_wf p -> map fst (fst (orun p opts)) = map fst opts.
Proof.
  induction p as [| |p IHp q IHq|p IHp|kw|kw b IHb]; intros opts W; simpl in *; auto.
  - destruct W as [W1 W2]. destruct (orun p opts) as [o f] eqn:E.
    assert (K : map fst o = map fst opts) by (rewrite <- (IHp opts W1), E; reflexivity).
    destruct f; simpl; [exact K|]. rewrite IHq by exact W2. exact K.
  - destruct (set_options_init opts kw) as [o [old|e]] eqn:E; simpl.
    + destruct (init_ok _ _ _ _ W E) as (_ & I & -> & _). apply dupdate_keys, I.
    + apply init_fail in E. subst. reflexivity.
  - destruct W as [W1 W2]. destruct (set_options_init opts kw) as [o [old|e]] eqn:E; simpl.
    + destruct (init_ok _ _ _ _ W1 E) as (K & I & -> & _).
      destruct (orun b (dupdate opts kw)) as [o' f] eqn:E2; simpl.
      assert (K2 : map fst o' = map fst opts).
      { transitivity (map fst (fst (orun b (dupdate opts kw)))); [rewrite E2; reflexivity|].
        rewrite IHb by exact W2. apply dupdate_keys, I. }
      unfold set_options_exit, apply_update. rewrite dupdate_keys; [exact K2|].
      rewrite K, K2. exact I.
    + apply init_fail in E. subst. reflexivity.
Qed.

(* What a context does in general: given keys get their former values back,
   other keys are as the body left them. *)
Theorem context_restores_its_keys : forall kw body opts o old,
  NoDup (map fst kw) -> kwargs_wf body ->
  set_options_init opts kw = (o, Ok old) ->
  let inside := orun body o in
  let after := orun (OWith kw body) opts in
  snd after = snd inside /\
  map fst (fst after) = map fst opts /\
  (forall k, In k (map fst kw) -> dget k (fst after) = dget k opts) /\
  (forall k, ~ In k (map fst kw) -> dget k (fst after) = dget k (fst inside)).
Proof.
  intros kw body opts o old ND W E. cbv zeta. split; [|split; [|split]].
  - simpl. rewrite E. destruct (orun body o); reflexivity.
  - apply orun_keys. simpl. auto.
  - intros k Hk. simpl. rewrite E. destruct (orun body o) as [o' f]. simpl.
    destruct (init_ok _ _ _ _ ND E) as (K & I & -> & G).
    unfold set_options_exit, apply_update.
    destruct (dget k old) as [v|] eqn:Gk.
    + rewrite (dupdate_in old o' k v).
      * rewrite <- G, Gk; auto.
      * rewrite K. exact ND.
      * apply dget_some_in, Gk.
    + apply dget_none in Gk. rewrite K in Gk. tauto.
  - intros k Hk. simpl. rewrite E. destruct (orun body o) as [o' f]. simpl.
    destruct (init_ok _ _ _ _ ND E) as (K & _).
    apply dupdate_notin. rewrite K. exact Hk.
Qed.

(* C49: programs that use set_options only in with statements leave the
   options as they were, also when they raise. *)
Theorem contexts_restore_options : forall p opts,
  NoDup (map fst opts) -> kwargs_wf p -> only_contexts p -> fst (orun p opts) = opts.
Proof.
  induction p as [| |p IHp q IHq|p IHp|kw|kw b IHb]; intros opts ND W C; simpl in W, C.
  - reflexivity.
  - reflexivity.
  - destruct W as [W1 W2]. destruct C as [C1 C2]. specialize (IHp opts ND W1 C1). simpl.
    destruct (orun p opts) as [o f]. simpl in IHp. subst o. destruct f; simpl; auto.
  - simpl. auto.
  - tauto.
  - destruct W as [W1 W2]. destruct (set_options_init opts kw) as [o [old|e]] eqn:E.
    + destruct (context_restores_its_keys kw b opts o old W1 W2 E) as (_ & K & G1 & G2).
      symmetry. apply dict_ext; auto. intros k.
      destruct (in_dec string_dec k (map fst kw)) as [Hk|Hk].
      * rewrite G1; auto.
      * rewrite G2 by exact Hk.
        destruct (init_ok _ _ _ _ W1 E) as (_ & I & -> & _).
        rewrite IHb; auto.
        -- rewrite dupdate_notin; auto.
        -- rewrite dupdate_keys; auto.
    + simpl. rewrite E. simpl. apply init_fail in E. exact E.
Qed.
Definition ctx_prog : oprog :=
  OWith [("nmax", PInt 5); ("parallel", PBool false)]
    (OSeq (OTry (OWith [("nmax", PInt 7)] (OSeq (OWith [("cache", PBool false)] OSkip) OFail)))
          (OSeq (OTry (OWith [("nmax", PInt 9); ("typo", PInt 1)] OSkip)) OFail)).
Example contexts_restore_ex :
  NoDup (map fst (OPTIONS0 20 true true true)) /\ kwargs_wf ctx_prog /\ only_contexts ctx_prog /\
  orun ctx_prog (OPTIONS0 20 true true true) = (OPTIONS0 20 true true true, true) /\
  set_options_init (OPTIONS0 20 true true true) [("nmax", PInt 5)]
    = (OPTIONS0 5 true true true, Ok [("nmax", PInt 20)]).
Proof.
  split; [|split; [|split; [|split]]]; try reflexivity.
  - repeat constructor; simpl; intuition discriminate.
  - simpl. repeat split; repeat constructor; simpl; intuition discriminate.
  - simpl. tauto.
Qed.
(* the hypotheses of context_restores_its_keys with an unmatched set_options inside *)
Example context_keys_ex :
  let body := OSet [("nmax", PInt 3); ("cache", PBool false)] in
  orun (OWith [("nmax", PInt 5)] body) (OPTIONS0 20 true true true) = (OPTIONS0 20 false true true, false).
Proof. reflexivity. Qed.

(* contexts left in another order do not restore *)
Theorem contexts_not_lifo_refuted : exists opts kw1 kw2,
  NoDup (map fst opts) /\ NoDup (map fst kw1) /\ NoDup (map fst kw2) /\
  fst (fold_left ostep [CNew kw1; CNew kw2; CExit 0; CExit 1] (opts, [])) <> opts /\
  fst (fold_left ostep [CNew kw1; CNew kw2; CExit 1; CExit 0] (opts, [])) = opts.
Proof.
  exists (OPTIONS0 20 true true true), [("nmax", PInt 5)], [("nmax", PInt 7)].
  split; [|split; [|split; [|split]]].
  1-3: repeat constructor; simpl; intuition discriminate.
  - vm_compute. discriminate.
  - reflexivity.
Qed.

(* C50.  Which settings are accepted; a bool is an int. *)
Inductive acceptable : string -> pyval -> Prop :=
  | acc_nmax z : acceptable "nmax" (PInt z)
  | acc_nmax_bool b : acceptable "nmax" (PBool b)
  | acc_cache b : acceptable "cache" (PBool b)
  | acc_parallel b : acceptable "parallel" (PBool b)
  | acc_fastmath b : acceptable "fastmath" (PBool b).
Definition option_names : list string := ["nmax"; "cache"; "parallel"; "fastmath"].

Lemma acceptable_validates : forall opts k v, map fst opts = option_names ->
  acceptable k v <-> (dget k opts <> None /\ validates k v = true).
Proof.
  intros opts k v K. split.
  - intros A. split.
    + intros G. apply dget_none in G. apply G. rewrite K. destruct A; simpl; auto.
    + destruct A; reflexivity.
  - intros [G V]. assert (Hk : In k option_names).
    { rewrite <- K. destruct (in_dec string_dec k (map fst opts)) as [|N]; [assumption|].
      apply dget_none in N. tauto. }
    simpl in Hk. destruct Hk as [<-|[<-|[<-|[<-|[]]]]]; destruct v; try discriminate V; constructor.
Qed.

Lemma loop_accepts : forall kw opts old, map fst opts = option_names ->
  (Forall (fun kv => acceptable (fst kv) (snd kv)) kw -> exists old', set_options_loop opts kw old = Ok old') /\
  (~ Forall (fun kv => acceptable (fst kv) (snd kv)) kw -> set_options_loop opts kw old = Raise EValue).
Proof.
  induction kw as [|[k v] kw IH]; intros opts old K; simpl.
  - split; [eauto|]. intros H. exfalso. apply H. constructor.
  - pose proof (acceptable_validates opts k v K) as A.
    destruct (dget k opts) as [cur|] eqn:G; destruct (validates k v) eqn:V.
    + assert (acceptable k v) by (apply A; split; congruence).
      destruct (IH opts (dset k cur old) K) as [I1 I2]. split; intros H0.
      * apply I1. inversion H0; auto.
      * apply I2. intros F. apply H0. constructor; auto.
    + split; [|reflexivity]. intros H0. inversion H0; subst. simpl in *. apply A in H2. destruct H2; discriminate.
    + split; [|reflexivity]. intros H0. inversion H0; subst. simpl in *. apply A in H2. destruct H2; congruence.
    + split; [|reflexivity]. intros H0. inversion H0; subst. simpl in *. apply A in H2. destruct H2; congruence.
Qed.

Theorem set_options_all_or_nothing : forall opts kw,
  map fst opts = option_names -> NoDup (map fst kw) ->
  (Forall (fun kv => acceptable (fst kv) (snd kv)) kw ->
     exists o old, set_options_init opts kw = (o, Ok old) /\ map fst o = option_names /\
       (forall k v, In (k, v) kw -> dget k o = Some v) /\
       (forall k, ~ In k (map fst kw) -> dget k o = dget k opts)) /\
  (~ Forall (fun kv => acceptable (fst kv) (snd kv)) kw ->
     set_options_init opts kw = (opts, Raise EValue)).
Proof.
  intros opts kw K ND. destruct (loop_accepts kw opts [] K) as [A R]. split.
  - intros H. destruct (A H) as [old E].
    assert (E1 : set_options_init opts kw = (dupdate opts kw, Ok old)) by (unfold set_options_init; rewrite E; reflexivity).
    destruct (init_ok _ _ _ _ ND E1) as (_ & I & _).
    exists (dupdate opts kw), old. repeat split; auto.
    + rewrite dupdate_keys; auto.
    + intros k v Hk. apply dupdate_in; auto.
    + intros k Hk. apply dupdate_notin; auto.
  - intros H. unfold set_options_init. rewrite (R H). reflexivity.
Qed.
Example set_options_ex :
  map fst (OPTIONS0 20 true true true) = option_names /\
  Forall (fun kv => acceptable (fst kv) (snd kv)) [("fastmath", PBool false); ("nmax", PInt (-3))] /\
  ~ Forall (fun kv => acceptable (fst kv) (snd kv)) [("fastmath", PBool false); ("cache", PInt 1)] /\
  set_options_init (OPTIONS0 20 true true true) [("fastmath", PBool false); ("cache", PInt 1)]
    = (OPTIONS0 20 true true true, Raise EValue) /\
  set_options_init (OPTIONS0 20 true true true) [("fastmath", PBool false); ("nmax", PInt (-3))]
    = (OPTIONS0 (-3) true true false, Ok [("fastmath", PBool true); ("nmax", PInt 20)]).
Proof.
  repeat split.
  - repeat constructor.
  - intros H. inversion H as [|? ? _ Ha]. inversion Ha as [|? ? Hb _]. inversion Hb.
Qed.

(* whatever happens to the options, they keep their names and types *)
Theorem options_stay_typed : forall p opts, kwargs_wf p ->
  map fst opts = option_names -> Forall (fun kv => acceptable (fst kv) (snd kv)) opts ->
  map fst (fst (orun p opts)) = option_names /\
  Forall (fun kv => acceptable (fst kv) (snd kv)) (fst (orun p opts)).
Proof.
  assert (NDn : NoDup option_names) by (repeat constructor; simpl; intuition discriminate).
  assert (Upd : forall opts kw, map fst opts = option_names -> NoDup (map fst kw) -> incl (map fst kw) (map fst opts) ->
    Forall (fun kv => acceptable (fst kv) (snd kv)) opts -> Forall (fun kv => acceptable (fst kv) (snd kv)) kw ->
    Forall (fun kv => acceptable (fst kv) (snd kv)) (dupdate opts kw)).
  { intros opts kw K ND I Fo Fk. apply Forall_forall. intros [k v] H. simpl.
    assert (G : dget k (dupdate opts kw) = Some v).
    { apply dget_in; auto. rewrite dupdate_keys by exact I. rewrite K. exact NDn. }
    rewrite Forall_forall in Fo, Fk.
    destruct (dget k kw) as [w|] eqn:Gk.
    - apply dget_some_in in Gk. rewrite (dupdate_in kw opts k w ND Gk) in G. inversion G; subst. apply (Fk _ Gk).
    - apply dget_none in Gk. rewrite (dupdate_notin kw opts k Gk) in G. apply dget_some_in in G. apply (Fo _ G). }
  assert (Init : forall opts kw o old, map fst opts = option_names -> NoDup (map fst kw) ->
    Forall (fun kv => acceptable (fst kv) (snd kv)) opts -> set_options_init opts kw = (o, Ok old) ->
    map fst o = option_names /\ Forall (fun kv => acceptable (fst kv) (snd kv)) o /\
    Forall (fun kv => acceptable (fst kv) (snd kv)) old).
  { intros opts kw o old K ND Fo E.
    destruct (init_ok _ _ _ _ ND E) as (Ko & I & -> & G).
    assert (Fk : Forall (fun kv => acceptable (fst kv) (snd kv)) kw).
    { destruct (loop_accepts kw opts [] K) as [_ R].
      assert (D : Forall (fun kv => acceptable (fst kv) (snd kv)) kw \/ ~ Forall (fun kv => acceptable (fst kv) (snd kv)) kw).
      { destruct (Forall_Exists_dec (fun kv => acceptable (fst kv) (snd kv))
          (fun kv => ltac:(destruct (dget (fst kv) opts) eqn:E1; destruct (validates (fst kv) (snd kv)) eqn:E2;
             [left; apply (acceptable_validates opts _ _ K); split; congruence
             |right; intros A; apply (acceptable_validates opts _ _ K) in A; destruct A; congruence..]))  kw) as [D|D].
        - left; exact D.
        - right. intros F. rewrite Exists_exists in D. rewrite Forall_forall in F. destruct D as (x & H1 & H2). auto. }
      destruct D as [D|D]; [exact D|]. unfold set_options_init in E. rewrite (R D) in E. discriminate. }
    split; [|split].
    - rewrite dupdate_keys; auto.
    - apply Upd; auto.
    - apply Forall_forall. intros [k v] H. simpl.
      assert (Gk : dget k old = Some v) by (apply dget_in; [rewrite Ko; exact ND|exact H]).
      assert (Hk : In k (map fst kw)) by (rewrite <- Ko; apply (in_map fst) in H; exact H).
      rewrite (G k Hk) in Gk. apply dget_some_in in Gk. rewrite Forall_forall in Fo. apply (Fo _ Gk). }
  induction p as [| |p IHp q IHq|p IHp|kw|kw b IHb]; intros opts W K F; simpl in W.
  - auto.
  - auto.
  - destruct W as [W1 W2]. specialize (IHp opts W1 K F). simpl.
    destruct (orun p opts) as [o f]. simpl in IHp. destruct IHp as [K1 F1]. destruct f; simpl; auto.
  - simpl. auto.
  - simpl. destruct (set_options_init opts kw) as [o [old|e]] eqn:E; simpl.
    + destruct (Init _ _ _ _ K W F E) as (? & ? & ?). auto.
    + apply init_fail in E. subst. auto.
  - destruct W as [W1 W2]. simpl. destruct (set_options_init opts kw) as [o [old|e]] eqn:E; simpl.
    + destruct (Init _ _ _ _ K W1 F E) as (K1 & F1 & F2). specialize (IHb o W2 K1 F1).
      destruct (init_ok _ _ _ _ W1 E) as (Ko & I & _).
      destruct (orun b o) as [o' f]. simpl in *. destruct IHb as [K2 F3].
      assert (I2 : incl (map fst old) (map fst o')) by (rewrite Ko, K2, <- K; exact I).
      split.
      * unfold set_options_exit, apply_update. rewrite dupdate_keys; auto.
      * apply Upd; auto. rewrite Ko. exact W1.
    + apply init_fail in E. subst. auto.
Qed.
Example options_typed_ex :
  kwargs_wf ctx_prog /\ map fst (OPTIONS0 20 true true true) = option_names /\
  Forall (fun kv => acceptable (fst kv) (snd kv)) (OPTIONS0 20 true true true).
Proof.
  repeat split; repeat constructor; simpl; intuition discriminate.
Qed.

(* nmax is not checked further: True and negative numbers are accepted *)
Theorem nmax_value_refuted : exists opts o1 o2 old1 old2, map fst opts = option_names /\
  set_options_init opts [("nmax", PBool true)] = (o1, Ok old1) /\ dget "nmax" o1 = Some (PBool true) /\
  set_options_init opts [("nmax", PInt (-1))] = (o2, Ok old2) /\ dget "nmax" o2 = Some (PInt (-1)).
Proof. exists (OPTIONS0 20 true true true). do 4 eexists. repeat split. Qed.

(* ======================= shared generator (C51) ============================== *)

(* calls that replace the shared generator *)
Definition replaces (op : rop) : Prop :=
  match op with
  | RDefault (SSeed s) => (0 <= s)%Z
  | RSet _ => True
  | _ => False
  end.
(* calls after which there is a shared generator *)
Definition creates (op : rop) : Prop :=
  replaces op \/ op = RDefault SNone \/ op = RValidate SNone.

Lemma rstep_keeps : forall op st g, internal st = Some g -> ~ replaces op -> internal (rstep op st) = Some g.
Proof.
  intros op st g H N. destruct op as [s|s|h| |h]; simpl in *.
  - destruct s as [|s|h|]; simpl; auto.
    + rewrite H. exact H.
    + unfold default_rng, np_default_rng. destruct (s <? 0)%Z eqn:E; simpl; auto.
      apply Z.ltb_ge in E. tauto.
  - destruct s as [|s|h|]; simpl; auto.
    + rewrite H. exact H.
    + destruct (s <? 0)%Z; simpl; auto.
  - tauto.
  - exact H.
  - unfold draw. destruct (nth_error (heap st) h) as [[src k]|]; simpl; auto.
Qed.
Lemma rrun_keeps : forall ops st g, internal st = Some g -> Forall (fun op => ~ replaces op) ops ->
  internal (rrun ops st) = Some g.
Proof.
  induction ops as [|op ops IH]; intros st g H F; simpl; auto.
  inversion F; subst. apply IH; auto. apply rstep_keeps; auto.
Qed.

(* the same generator until it is replaced *)
Theorem shared_generator : forall ops st g st1,
  default_rng SNone st = (st1, Ok g) -> Forall (fun op => ~ replaces op) ops ->
  default_rng SNone (rrun ops st1) = (rrun ops st1, Ok g) /\
  validate_rng SNone (rrun ops st1) = (rrun ops st1, Ok g) /\
  get_internal_rng (rrun ops st1) = Ok g.
Proof.
  intros ops st g st1 H F.
  assert (I : internal st1 = Some g).
  { unfold default_rng in H. destruct (internal st) as [g0|] eqn:E.
    - unfold get_internal_rng in H. rewrite E in H. inversion H; subst. exact E.
    - cbn in H. inversion H; subst. reflexivity. }
  pose proof (rrun_keeps ops st1 g I F) as R.
  unfold validate_rng, default_rng, get_internal_rng. rewrite R. auto.
Qed.
Example shared_generator_ex :
  let ops := [RValidate (SSeed 3); RDraw 0; RDefault (SGen 1); RDefault SBad; RGet; RDraw 1] in
  default_rng SNone rng0 = (RState [(Entropy 0, 0)] (Some 0), Ok 0) /\
  Forall (fun op => ~ replaces op) ops /\
  rrun ops (RState [(Entropy 0, 0)] (Some 0)) = RState [(Entropy 0, 1); (Seeded 3, 1)] (Some 0).
Proof. cbv zeta. repeat split. repeat constructor; simpl; tauto. Qed.

(* a seed makes a new generator, which becomes the shared one; existing
   generators keep their state *)
Theorem seed_replaces_generator : forall s st, (0 <= s)%Z ->
  exists st1 g, default_rng (SSeed s) st = (st1, Ok g) /\
    g = List.length (heap st) /\ nth_error (heap st1) g = Some (Seeded s, 0) /\
    get_internal_rng st1 = Ok g /\
    forall h, h < List.length (heap st) -> nth_error (heap st1) h = nth_error (heap st) h.
Proof.
  intros s st H. unfold default_rng, np_default_rng.
  destruct (s <? 0)%Z eqn:E; [apply Z.ltb_lt in E; lia|].
  do 2 eexists. split; [reflexivity|]. repeat split; simpl.
  - rewrite nth_error_app2, Nat.sub_diag by lia. reflexivity.
  - intros h Hh. rewrite nth_error_app1 by exact Hh. reflexivity.
Qed.
(* a generator of the caller is returned itself, nothing changes *)
Theorem caller_generator_untouched : forall g st,
  default_rng (SGen g) st = (st, Ok g) /\ validate_rng (SGen g) st = (st, Ok g).
Proof. intros g st. split; reflexivity. Qed.
(* validate_rng with a seed: a new generator, the shared one stays, and so do
   all streams; a rejected seed changes nothing *)
Theorem validate_rng_seed : forall s st,
  (0 <= s)%Z ->
  exists st1, validate_rng (SSeed s) st = (st1, Ok (List.length (heap st))) /\
    nth_error (heap st1) (List.length (heap st)) = Some (Seeded s, 0) /\
    internal st1 = internal st /\
    forall h, h < List.length (heap st) -> nth_error (heap st1) h = nth_error (heap st) h.
Proof.
  intros s st H. unfold validate_rng, np_default_rng.
  destruct (s <? 0)%Z eqn:E; [apply Z.ltb_lt in E; lia|].
  eexists. split; [reflexivity|]. repeat split; simpl.
  - rewrite nth_error_app2, Nat.sub_diag by lia. reflexivity.
  - intros h Hh. rewrite nth_error_app1 by exact Hh. reflexivity.
Qed.
Theorem rejected_seed : forall s st, s = SBad \/ (exists z, s = SSeed z /\ (z < 0)%Z) ->
  exists e1 e2, default_rng s st = (st, Raise e1) /\ validate_rng s st = (st, Raise e2).
Proof.
  intros s st [->|(z & -> & H)].
  - exists EType, EType. split; reflexivity.
  - apply Z.ltb_lt in H. exists EValue, EValue. unfold validate_rng, default_rng, np_default_rng. rewrite H. auto.
Qed.
Example seeds_ex :
  default_rng (SSeed 7) (RState [(Entropy 0, 4)] (Some 0)) = (RState [(Entropy 0, 4); (Seeded 7, 0)] (Some 1), Ok 1) /\
  validate_rng (SSeed 7) (RState [(Entropy 0, 4)] (Some 0)) = (RState [(Entropy 0, 4); (Seeded 7, 0)] (Some 0), Ok 1) /\
  default_rng (SSeed (-7)) (RState [(Entropy 0, 4)] (Some 0)) = (RState [(Entropy 0, 4)] (Some 0), Raise EValue).
Proof. repeat split. Qed.

(* get_internal_rng fails exactly before the first use *)
Theorem internal_rng_missing : forall ops,
  get_internal_rng (rrun ops rng0) = Raise EValue <-> Forall (fun op => ~ creates op) ops.
Proof.
  assert (Some_keeps : forall ops st, internal st <> None -> internal (rrun ops st) <> None).
  { induction ops as [|op ops IH]; intros st H; simpl; auto. apply IH.
    destruct (internal st) as [g|] eqn:E; [|tauto].
    destruct op as [s|s|h| |h]; simpl; try congruence.
    - destruct s as [|s|h|]; simpl; try congruence.
      + rewrite E. simpl. congruence.
      + unfold default_rng, np_default_rng. destruct (s <? 0)%Z; simpl; congruence.
    - destruct s as [|s|h|]; simpl; try congruence.
      + rewrite E. simpl. congruence.
      + destruct (s <? 0)%Z; simpl; congruence.
    - unfold draw. destruct (nth_error (heap st) h) as [[? ?]|]; simpl; congruence. }
  assert (Step : forall op st, internal st = None -> (internal (rstep op st) = None <-> ~ creates op)).
  { intros op st H. unfold creates. destruct op as [s|s|h| |h]; simpl.
    - destruct s as [|s|h|]; simpl.
      + rewrite H. simpl. split; [discriminate|intros N; exfalso; apply N; auto].
      + unfold default_rng, np_default_rng. destruct (s <? 0)%Z eqn:E; simpl.
        * apply Z.ltb_lt in E. split; auto. intros _ [?|[?|?]]; try discriminate. lia.
        * apply Z.ltb_ge in E. split; [discriminate|]. intros N. exfalso. apply N. auto.
      + split; auto. intros _ [?|[?|?]]; try discriminate. tauto.
      + split; auto. intros _ [?|[?|?]]; try discriminate. tauto.
    - destruct s as [|s|h|]; simpl.
      + rewrite H. simpl. split; [discriminate|intros N; exfalso; apply N; auto].
      + destruct (s <? 0)%Z; simpl; (split; [intros _ [?|[?|?]]; try discriminate; tauto|auto]).
      + split; auto. intros _ [?|[?|?]]; try discriminate. tauto.
      + split; auto. intros _ [?|[?|?]]; try discriminate. tauto.
    - split; [discriminate|]. intros N. exfalso. apply N. auto.
    - split; auto. intros _ [?|[?|?]]; try discriminate. tauto.
    - unfold draw. split; [intros _ [?|[?|?]]; try discriminate; tauto|]. intros _.
      destruct (nth_error (heap st) h) as [[? ?]|]; simpl; auto. }
  assert (Main : forall ops st, internal st = None ->
    (internal (rrun ops st) = None <-> Forall (fun op => ~ creates op) ops)).
  { induction ops as [|op ops IH]; intros st H; simpl.
    - split; auto.
    - split.
      + intros R. destruct (internal (rstep op st)) as [g|] eqn:E.
        * exfalso. apply (Some_keeps ops (rstep op st)); congruence.
        * constructor; [apply (Step op st H), E|apply (IH (rstep op st) E), R].
      + intros F. inversion F; subst. apply IH; auto. apply (Step op st H). assumption. }
  intros ops. rewrite <- (Main ops rng0 eq_refl). unfold get_internal_rng.
  destruct (internal (rrun ops rng0)); split; congruence.
Qed.
Example internal_rng_ex :
  Forall (fun op => ~ creates op) [RGet; RDefault (SSeed (-1)); RValidate (SSeed 4); RDefault SBad] /\
  get_internal_rng (rrun [RGet; RDefault (SSeed (-1)); RValidate (SSeed 4); RDefault SBad] rng0) = Raise EValue /\
  get_internal_rng (rrun [RGet; RValidate SNone] rng0) = Ok 0.
Proof.
  repeat split. repeat constructor; unfold creates; simpl; intros [?|[?|?]]; try discriminate; lia.
Qed.

(* Reproducibility: after default_rng(s) the numbers drawn through default_rng()
   are the stream of s from its beginning, whatever else happens in between
   except replacing the shared generator or drawing from it by hand. *)
Inductive sop := Shared | Other (op : rop).
Definition shared_draw (st : rstate) : rstate * option (source * nat) :=
  match default_rng SNone st with
  | (st1, Ok g) => draw g st1
  | (st1, Raise _) => (st1, None)
  end.
Fixpoint srun (ops : list sop) (st : rstate) : list (option (source * nat)) :=
  match ops with
  | [] => []
  | Shared :: t => let (st1, v) := shared_draw st in v :: srun t st1
  | Other op :: t => srun t (rstep op st)
  end.
Definition leaves_alone (g : nat) (o : sop) : Prop :=
  match o with Shared => True | Other op => ~ replaces op /\ op <> RDraw g end.
Definition is_shared (o : sop) : bool := match o with Shared => true | Other _ => false end.

Lemma upd_nth_same : forall {T} (l : list T) i v x, nth_error l i = Some x -> nth_error (upd l i v) i = Some v.
Proof. induction l as [|a l IH]; intros [|i] v x H; simpl in *; try discriminate; eauto. Qed.
Lemma upd_nth_other : forall {T} (l : list T) i j v, i <> j -> nth_error (upd l i v) j = nth_error l j.
Proof.
  induction l as [|a l IH]; intros [|i] [|j] v H; simpl; auto; congruence.
Qed.

Lemma rstep_stream : forall op st g x, internal st = Some g -> nth_error (heap st) g = Some x ->
  ~ replaces op -> op <> RDraw g ->
  internal (rstep op st) = Some g /\ nth_error (heap (rstep op st)) g = Some x.
Proof.
  intros op st g x I H N D. split; [apply rstep_keeps; auto|].
  assert (L : g < List.length (heap st)) by (apply nth_error_Some; congruence).
  destruct op as [s|s|h| |h]; simpl in *; auto.
  - destruct s as [|s|h|]; simpl; auto.
    + rewrite I. exact H.
    + unfold default_rng, np_default_rng. destruct (s <? 0)%Z eqn:E; simpl; auto.
      apply Z.ltb_ge in E. tauto.
  - destruct s as [|s|h|]; simpl; auto.
    + rewrite I. exact H.
    + destruct (s <? 0)%Z; simpl; auto. rewrite nth_error_app1; auto.
  - unfold draw. destruct (nth_error (heap st) h) as [[src k]|] eqn:E; simpl; auto.
    rewrite upd_nth_other; auto; congruence.
Qed.

Theorem seeded_stream_reproducible : forall ops s st st1 g, (0 <= s)%Z ->
  default_rng (SSeed s) st = (st1, Ok g) -> Forall (leaves_alone g) ops ->
  srun ops st1 = map (fun k => Some (Seeded s, k)) (seq 0 (List.length (filter is_shared ops))).
Proof.
  intros ops s st st1 g Hs E F.
  destruct (seed_replaces_generator s st Hs) as (st2 & g2 & E2 & _ & H & I & _).
  rewrite E in E2. inversion E2; subst st2 g2. clear E2 E.
  unfold get_internal_rng in I. destruct (internal st1) as [g'|] eqn:I1; inversion I; subst g'. clear I.
  assert (Gen : forall ops st k, internal st = Some g -> nth_error (heap st) g = Some (Seeded s, k) ->
    Forall (leaves_alone g) ops ->
    srun ops st = map (fun k => Some (Seeded s, k)) (seq k (List.length (filter is_shared ops)))).
  2: exact (Gen ops st1 0 I1 H F).
  clear. induction ops as [|[|op] ops IH]; intros st k I H F; inversion F as [|? ? F1 F2]; subst; simpl; auto.
  - unfold shared_draw, default_rng, get_internal_rng. rewrite I. unfold draw. rewrite H. simpl. f_equal.
    apply IH; auto. simpl. apply upd_nth_same with (x := (Seeded s, k)). exact H.
  - simpl in F1. destruct F1 as [F1 F3]. destruct (rstep_stream op st g _ I H F1 F3) as [I2 H2].
    apply IH; auto.
Qed.
Example seeded_stream_ex :
  let ops := [Shared; Other (RValidate (SSeed 9)); Other (RDraw 2); Shared; Other (RDraw 0); Shared] in
  default_rng (SSeed 5) (RState [(Entropy 0, 3)] (Some 0)) = (RState [(Entropy 0, 3); (Seeded 5, 0)] (Some 1), Ok 1) /\
  Forall (leaves_alone 1) ops /\
  srun ops (RState [(Entropy 0, 3); (Seeded 5, 0)] (Some 1)) = [Some (Seeded 5, 0); Some (Seeded 5, 1); Some (Seeded 5, 2)].
Proof.
  cbv zeta. repeat split. repeat constructor; simpl; auto; congruence.
Qed.

(* ======================= parallel kernels (C53) ================================= *)

(* histories without direct calls of the factories *)
Definition no_factory (op : pop) : Prop := match op with PFactory _ _ _ _ => False | _ => True end.
(* a call asks whether threads are safe: parallel=True, or size given and parallel=None *)
Definition asks (parallel : option bool) (size : option Z) : bool :=
  match parallel with Some b => b | None => match size with Some _ => true | None => false end end.
(* the first thread that asked while the option was on; true = unsafe *)
Fixpoint first_asking (opt : bool) (ops : list pop) : option bool :=
  match ops with
  | [] => None
  | POption b :: t => first_asking b t
  | PPublic _ _ p s u :: t | PHeuristic p s u :: t =>
      if (opt && asks p s)%bool then Some u else first_asking opt t
  | PFactory _ _ _ _ :: t => first_asking opt t
  end.
(* value of the option after a history *)
Definition last_option (opt : bool) (ops : list pop) : bool :=
  fold_left (fun o op => match op with POption b => b | _ => o end) ops opt.
(* large enough, or asked for *)
Definition wanted (parallel : option bool) (size : option Z) : Prop :=
  parallel = Some true \/ (parallel = None /\ exists n, size = Some n /\ (10000 < n)%Z).

Definition pinv (st : pstate) : Prop :=
  forall f nd p b, flook (f, nd, p) (fcache st) = Some b -> b = p /\ (b = true -> safe_cache st = Some true).

Lemma fkey_eqb_eq : forall a b, fkey_eqb a b = true <-> a = b.
Proof.
  intros [[a1 a2] a3] [[b1 b2] b3]. unfold fkey_eqb. simpl.
  rewrite !andb_true_iff, !Nat.eqb_eq, Bool.eqb_true_iff. split.
  - intros [[-> ->] ->]. reflexivity.
  - intros H. inversion H. auto.
Qed.

Lemma wanted_true : forall s, wanted (Some true) s <-> True.
Proof. unfold wanted. tauto. Qed.
Lemma wanted_false : forall s, wanted (Some false) s <-> False.
Proof. unfold wanted. intros s. split; [|tauto]. intros [H|[H _]]; discriminate. Qed.
Lemma wanted_none : wanted None None <-> False.
Proof. unfold wanted. split; [|tauto]. intros [H|[_ (n & H & _)]]; discriminate. Qed.
Lemma wanted_size : forall n, wanted None (Some n) <-> (10000 <? n)%Z = true.
Proof.
  unfold wanted. intros n. rewrite Z.ltb_lt. split.
  - intros [H|[_ (m & H & G)]]; [discriminate|]. inversion H; subst. exact G.
  - intros H. right. split; [reflexivity|]. eauto.
Qed.

Lemma heuristic_spec : forall p s u st st1 r, parallel_heuristic p s 10000 u st = (st1, r) ->
  fcache st1 = fcache st /\ targets st1 = targets st /\ opt_parallel st1 = opt_parallel st /\
  safe_cache st1 = (match safe_cache st with
                    | Some b => Some b
                    | None => if (opt_parallel st && asks p s)%bool then Some (negb u) else None
                    end) /\
  (r = true <-> wanted p s /\ opt_parallel st = true /\
                match safe_cache st with Some b => b = true | None => u = false end).
Proof.
  unfold parallel_heuristic, supports_parallel, safe_threadpool, asks.
  intros p s u [o c fc tg] st1 r H.
  destruct p as [[|]|]; [rewrite wanted_true|rewrite wanted_false|destruct s as [n|]; [rewrite wanted_size|rewrite wanted_none]];
    destruct o, c as [b|]; simpl in *; inversion H; subst; simpl;
    (split; [reflexivity|split; [reflexivity|split; [reflexivity|split; [reflexivity|]]]]);
    rewrite ?andb_true_iff, ?negb_true_iff; intuition congruence.
Qed.

Lemma factory_spec : forall f nd p u st st1 b, pinv st ->
  (p = true -> opt_parallel st = true /\ safe_cache st = Some true) ->
  factory f nd p u st = (st1, b) ->
  b = p /\ pinv st1 /\ safe_cache st1 = safe_cache st /\ opt_parallel st1 = opt_parallel st.
Proof.
  unfold factory. intros f nd p u st st1 b Inv P H.
  destruct (flook (f, nd, p) (fcache st)) as [b0|] eqn:E.
  - inversion H; subst. destruct (Inv _ _ _ _ E). auto.
  - assert (S : (if p then supports_parallel u st else (st, false)) = (st, p)).
    { destruct p; [|reflexivity]. destruct (P eq_refl) as [P1 P2].
      unfold supports_parallel, safe_threadpool. rewrite P1, P2. reflexivity. }
    rewrite S in H. cbv zeta in H. inversion H; subst. clear H. split; [reflexivity|].
    assert (M : fcache (import_module f nd b u st) = fcache st /\
                safe_cache (import_module f nd b u st) = safe_cache st /\
                opt_parallel (import_module f nd b u st) = opt_parallel st).
    { unfold import_module. destruct b; auto. destruct (flook (module_of f, nd, true) (targets st)); auto. }
    destruct M as (M1 & M2 & M3). simpl. split; [|auto].
    unfold pinv. simpl. rewrite M1, M2. intros f' nd' p' b' H.
    destruct (fkey_eqb (f', nd', p') (f, nd, b)) eqn:K.
    + apply fkey_eqb_eq in K. inversion K; subst. inversion H; subst. split; [reflexivity|].
      intros B. destruct (P B). assumption.
    + apply Inv in H. exact H.
Qed.

Lemma public_spec : forall f nd p s u st st1 b, pinv st -> public_kernel f nd p s u st = (st1, b) ->
  pinv st1 /\ opt_parallel st1 = opt_parallel st /\
  safe_cache st1 = (match safe_cache st with
                    | Some b => Some b
                    | None => if (opt_parallel st && asks p s)%bool then Some (negb u) else None
                    end) /\
  (b = true <-> wanted p s /\ opt_parallel st = true /\
                match safe_cache st with Some b => b = true | None => u = false end).
Proof.
  unfold public_kernel. intros f nd p s u st st1 b Inv H.
  destruct (parallel_heuristic p s 10000 u st) as [st2 r] eqn:E.
  destruct (heuristic_spec _ _ _ _ _ _ E) as (Ec & Et & Eo & Es & Er).
  assert (W : r = true -> opt_parallel st2 = true /\ safe_cache st2 = Some true).
  { intros R. destruct Er as [Er _]. destruct (Er R) as (Ew & Eo' & Es'). split; [congruence|].
    rewrite Es. destruct (safe_cache st) as [b0|]; [congruence|]. subst u. rewrite Eo'.
    assert (A : asks p s = true).
    { destruct Ew as [->|(-> & n & -> & _)]; reflexivity. }
    rewrite A. reflexivity. }
  assert (Inv2 : pinv st2).
  { unfold pinv. rewrite Ec. intros f' nd' p' b' L. destruct (Inv _ _ _ _ L) as [-> T]. split; [reflexivity|].
    intros B. rewrite Es, (T B). reflexivity. }
  destruct (factory_spec f nd r u st2 st1 b Inv2 W H) as (-> & I3 & S3 & O3).
  split; [exact I3|]. split; [congruence|]. split; [congruence|exact Er].
Qed.

Lemma history_spec : forall ops st, pinv st -> Forall no_factory ops ->
  pinv (prun ops st) /\ opt_parallel (prun ops st) = last_option (opt_parallel st) ops /\
  safe_cache (prun ops st) = match safe_cache st with
                             | Some b => Some b
                             | None => option_map negb (first_asking (opt_parallel st) ops)
                             end.
Proof.
  induction ops as [|op ops IH]; intros st Inv F.
  - simpl. destruct (safe_cache st); auto.
  - inversion F as [|? ? F1 F2]; subst.
    change (prun (op :: ops) st) with (prun ops (pstep op st)).
    destruct op as [b|f nd p s u|p s u|f nd p u]; simpl in F1; [| | |tauto].
    + destruct (IH (pstep (POption b) st)) as (A & B & C); auto.
    + simpl pstep. destruct (public_kernel f nd p s u st) as [st1 b] eqn:E.
      destruct (public_spec _ _ _ _ _ _ _ _ Inv E) as (I1 & O1 & S1 & _). simpl fst.
      destruct (IH st1 I1 F2) as (A & B & C). split; [exact A|]. split; [rewrite B, O1; reflexivity|].
      rewrite C, S1, O1. destruct (safe_cache st); [reflexivity|]. simpl.
      destruct (opt_parallel st && asks p s)%bool; reflexivity.
    + simpl pstep. destruct (parallel_heuristic p s 10000 u st) as [st1 b] eqn:E.
      destruct (heuristic_spec _ _ _ _ _ _ E) as (Ec & Et & Eo & Es & Er). simpl fst.
      assert (I1 : pinv st1).
      { unfold pinv. rewrite Ec. intros f' nd' p' b' L. destruct (Inv _ _ _ _ L) as [-> T]. split; [reflexivity|].
        intros B. rewrite Es, (T B). reflexivity. }
      destruct (IH st1 I1 F2) as (A & B & C). split; [exact A|]. split; [rewrite B, Eo; reflexivity|].
      rewrite C, Es, Eo. destruct (safe_cache st); [reflexivity|]. simpl.
      destruct (opt_parallel st && asks p s)%bool; reflexivity.
Qed.

(* The exact rule: a public function uses the parallel module if and only if it
   is asked for or the data are large, the option is on now, and the first
   thread that ever asked was a safe one. *)
Theorem parallel_selection : forall opt ops f nd parallel size unsafe,
  Forall no_factory ops ->
  snd (public_kernel f nd parallel size unsafe (prun ops (par0 opt))) = true <->
  wanted parallel size /\ last_option opt ops = true /\
  match first_asking opt ops with Some u => u = false | None => unsafe = false end.
Proof.
  intros opt ops f nd p s u F.
  assert (I0 : pinv (par0 opt)) by (intros f' nd' p' b' H; discriminate H).
  destruct (history_spec ops (par0 opt) I0 F) as (I & O & S). simpl in O, S.
  destruct (public_kernel f nd p s u (prun ops (par0 opt))) as [st1 b] eqn:E.
  destruct (public_spec _ _ _ _ _ _ _ _ I E) as (_ & _ & _ & R). simpl. rewrite R, O, S.
  destruct (first_asking opt ops) as [[|]|]; simpl; intuition congruence.
Qed.
Example parallel_selection_ex :
  let ops := [PPublic 1 2 None (Some 3%Z) false; POption false; PPublic 0 1 (Some true) None true; POption true;
              PHeuristic None None true] in
  Forall no_factory ops /\ first_asking true ops = Some false /\ last_option true ops = true /\
  snd (public_kernel 0 1 None (Some 20000%Z) false (prun ops (par0 true))) = true /\
  snd (public_kernel 0 1 None (Some 10000%Z) false (prun ops (par0 true))) = false /\
  snd (public_kernel 0 1 (Some false) (Some 20000%Z) false (prun ops (par0 true))) = false.
Proof. cbv zeta. repeat split. repeat constructor. Qed.

(* the first answer is remembered for ever *)
Theorem unsafe_first_never_parallel : forall opt ops1 ops2 f nd parallel size unsafe,
  Forall no_factory ops1 -> Forall no_factory ops2 -> first_asking opt ops1 = Some true ->
  snd (public_kernel f nd parallel size unsafe (prun (ops1 ++ ops2) (par0 opt))) = false.
Proof.
  intros opt ops1 ops2 f nd p s u F1 F2 H.
  apply not_true_iff_false. intros T. apply parallel_selection in T; [|apply Forall_app; auto].
  destruct T as (_ & _ & T).
  assert (A : first_asking opt (ops1 ++ ops2) = Some true).
  { clear -H. revert opt H. induction ops1 as [|op ops IH]; intros opt H; simpl in *; [discriminate|].
    destruct op as [b|f nd p s u|p s u|f nd p u]; auto; destruct (opt && asks p s)%bool; auto. }
  rewrite A in T. discriminate.
Qed.
Example unsafe_first_ex : first_asking true [PPublic 0 1 (Some true) None true] = Some true.
Proof. reflexivity. Qed.

(* "only when the threading layer supports it" is false for the calling thread:
   the answer for the main thread is used for a worker of a thread pool *)
Theorem parallel_in_unsafe_thread_refuted : exists ops f nd,
  Forall no_factory ops /\
  let r := public_kernel f nd (Some true) None true (prun ops (par0 true)) in
  snd r = true /\ runs_parallel f nd (fst r) (snd r) = true.
Proof.
  exists [PPublic 0 1 (Some true) None false], 0, 1. split; [repeat constructor|]. vm_compute. auto.
Qed.

(* The thread that counts for the kernel that really runs: the first call, in a
   history of any calls, that was given the parallel version of a function of
   the same kernel module (true = unsafe thread). *)
Definition given (f nd : nat) (op : pop) (st : pstate) : option bool :=
  match op with
  | PPublic g md p s u =>
      if (Nat.eqb (module_of g) (module_of f) && Nat.eqb md nd && snd (public_kernel g md p s u st))%bool
      then Some u else None
  | PFactory g md p u =>
      if (Nat.eqb (module_of g) (module_of f) && Nat.eqb md nd && snd (factory g md p u st))%bool
      then Some u else None
  | _ => None
  end.
Fixpoint first_given (f nd : nat) (ops : list pop) (st : pstate) : option bool :=
  match ops with
  | [] => None
  | op :: t => match given f nd op st with Some u => Some u | None => first_given f nd t (pstep op st) end
  end.

(* a remembered parallel function belongs to an imported module *)
Definition tinv (st : pstate) : Prop :=
  forall f nd p, flook (f, nd, p) (fcache st) = Some true -> flook (module_of f, nd, true) (targets st) <> None.

Lemma heuristic_targets : forall p s c u st,
  fcache (fst (parallel_heuristic p s c u st)) = fcache st /\
  targets (fst (parallel_heuristic p s c u st)) = targets st.
Proof.
  intros p s c u [o sc fc tg]. unfold parallel_heuristic, supports_parallel, safe_threadpool.
  destruct p as [[|]|], s as [n|], o, sc; simpl; auto.
Qed.

Lemma factory_targets : forall g md p u st, tinv st ->
  tinv (fst (factory g md p u st)) /\
  forall f nd, flook (module_of f, nd, true) (targets (fst (factory g md p u st))) =
    match flook (module_of f, nd, true) (targets st) with
    | Some t => Some t
    | None => if (Nat.eqb (module_of g) (module_of f) && Nat.eqb md nd && snd (factory g md p u st))%bool
              then Some (negb u) else None
    end.
Proof.
  intros g md p u st Inv. unfold factory.
  destruct (flook (g, md, p) (fcache st)) as [b|] eqn:E.
  { split; [exact Inv|]. simpl. intros f nd. destruct (flook (module_of f, nd, true) (targets st)) eqn:T; [reflexivity|].
    destruct b; [|rewrite andb_false_r; reflexivity].
    destruct (Nat.eqb_spec (module_of g) (module_of f)) as [Hm|]; [|reflexivity].
    destruct (Nat.eqb_spec md nd) as [Hn|]; [|reflexivity]. subst. exfalso.
    apply (Inv _ _ _ E). rewrite Hm. exact T. }
  destruct (if p then supports_parallel u st else (st, false)) as [st1 b] eqn:S.
  assert (A : fcache st1 = fcache st /\ targets st1 = targets st).
  { destruct p; [|inversion S; auto]. unfold supports_parallel, safe_threadpool in S. destruct st as [o sc fc tg].
    simpl in S. destruct o, sc; inversion S; auto. }
  destruct A as [A1 A2]. cbv zeta. cbn [fst snd fcache targets].
  assert (T : forall f nd, flook (module_of f, nd, true) (targets (import_module g md b u st1)) =
    match flook (module_of f, nd, true) (targets st) with
    | Some t => Some t
    | None => if (Nat.eqb (module_of g) (module_of f) && Nat.eqb md nd && b)%bool then Some (negb u) else None
    end).
  { intros f nd. unfold import_module. destruct b.
    2:{ rewrite A2, andb_false_r. destruct (flook (module_of f, nd, true) (targets st)); reflexivity. }
    rewrite andb_true_r, A2. destruct (flook (module_of g, md, true) (targets st)) as [t|] eqn:G.
    - rewrite A2. destruct (flook (module_of f, nd, true) (targets st)) eqn:F; [reflexivity|].
      destruct (Nat.eqb_spec (module_of g) (module_of f)); [|reflexivity].
      destruct (Nat.eqb_spec md nd); [|reflexivity]. congruence.
    - cbn [targets]. rewrite ?A2. cbn [flook]. unfold fkey_eqb. cbn [fst snd].
      rewrite andb_true_r, (Nat.eqb_sym (module_of f)), (Nat.eqb_sym nd).
      destruct (Nat.eqb_spec (module_of g) (module_of f)) as [Hm|]; cbn [andb];
        [|destruct (flook (module_of f, nd, true) (targets st)); reflexivity].
      destruct (Nat.eqb_spec md nd) as [Hn|]; cbn [andb];
        [|destruct (flook (module_of f, nd, true) (targets st)); reflexivity].
      rewrite <- Hm, <- Hn, G. reflexivity. }
  split; [|exact T].
  unfold tinv. cbn [fcache targets]. intros f nd q. cbn [flook].
  assert (FC : fcache (import_module g md b u st1) = fcache st).
  { unfold import_module. destruct b; [|exact A1]. destruct (flook (module_of g, md, true) (targets st1)); exact A1. }
  rewrite FC. destruct (fkey_eqb (f, nd, q) (g, md, p)) eqn:K.
  - apply fkey_eqb_eq in K. inversion K; subst. intros H. inversion H; subst. rewrite T, !Nat.eqb_refl. simpl.
    destruct (flook (module_of g, md, true) (targets st)); discriminate.
  - intros H. apply Inv in H. rewrite T. destruct (flook (module_of f, nd, true) (targets st)); [discriminate|].
    exfalso; apply H; reflexivity.
Qed.

Lemma public_targets : forall g md p s u st, tinv st ->
  tinv (fst (public_kernel g md p s u st)) /\
  forall f nd, flook (module_of f, nd, true) (targets (fst (public_kernel g md p s u st))) =
    match flook (module_of f, nd, true) (targets st) with
    | Some t => Some t
    | None => if (Nat.eqb (module_of g) (module_of f) && Nat.eqb md nd && snd (public_kernel g md p s u st))%bool
              then Some (negb u) else None
    end.
Proof.
  intros g md p s u st Inv. unfold public_kernel.
  destruct (heuristic_targets p s 10000 u st) as [H1 H2].
  destruct (parallel_heuristic p s 10000 u st) as [st1 q]. cbn [fst] in H1, H2.
  assert (I1 : tinv st1) by (unfold tinv; rewrite H1, H2; exact Inv).
  rewrite <- H2. apply factory_targets. exact I1.
Qed.

Lemma step_targets : forall f nd op st, tinv st -> tinv (pstep op st) /\
  flook (module_of f, nd, true) (targets (pstep op st)) =
    match flook (module_of f, nd, true) (targets st) with
    | Some t => Some t
    | None => option_map negb (given f nd op st)
    end.
Proof.
  intros f nd op st Inv. destruct op as [b|g md p s u|p s u|g md p u]; cbn [pstep given].
  - split; [exact Inv|]. cbn [targets option_map]. destruct (flook (module_of f, nd, true) (targets st)); reflexivity.
  - destruct (public_targets g md p s u st Inv) as [A B]. split; [exact A|]. rewrite B.
    destruct (Nat.eqb (module_of g) (module_of f) && Nat.eqb md nd && snd (public_kernel g md p s u st))%bool; reflexivity.
  - destruct (heuristic_targets p s 10000 u st) as [H1 H2]. split; [unfold tinv; rewrite H1, H2; exact Inv|].
    rewrite H2. cbn [option_map]. destruct (flook (module_of f, nd, true) (targets st)); reflexivity.
  - destruct (factory_targets g md p u st Inv) as [A B]. split; [exact A|]. rewrite B.
    destruct (Nat.eqb (module_of g) (module_of f) && Nat.eqb md nd && snd (factory g md p u st))%bool; reflexivity.
Qed.

Lemma run_targets : forall f nd ops st, tinv st -> tinv (prun ops st) /\
  flook (module_of f, nd, true) (targets (prun ops st)) =
    match flook (module_of f, nd, true) (targets st) with
    | Some t => Some t
    | None => option_map negb (first_given f nd ops st)
    end.
Proof.
  intros f nd. induction ops as [|op ops IH]; intros st Inv.
  - split; [exact Inv|]. simpl. destruct (flook (module_of f, nd, true) (targets st)); reflexivity.
  - change (prun (op :: ops) st) with (prun ops (pstep op st)).
    destruct (step_targets f nd op st Inv) as [A B]. destruct (IH _ A) as [C D].
    split; [exact C|]. rewrite D, B. cbn [first_given].
    destruct (flook (module_of f, nd, true) (targets st)); [reflexivity|].
    destruct (given f nd op st); reflexivity.
Qed.

(* Which threads are used: after any history, direct calls of factories
   included, the kernel of a public function runs multithreaded if and only if
   the parallel version is selected and the thread that first obtained a
   parallel function of the same module was a safe one. *)
Theorem parallel_target : forall opt ops f nd parallel size unsafe,
  let st := prun ops (par0 opt) in
  let r := public_kernel f nd parallel size unsafe st in
  runs_parallel f nd (fst r) (snd r) = true <->
  snd r = true /\
  match first_given f nd ops (par0 opt) with Some u => u = false | None => unsafe = false end.
Proof.
  intros opt ops f nd p s u st r.
  assert (I0 : tinv (par0 opt)) by (intros g md q H; discriminate H).
  destruct (run_targets f nd ops (par0 opt) I0) as [A B]. cbn [par0 targets flook] in B.
  destruct (public_targets f nd p s u st A) as [_ C]. fold r in C.
  unfold runs_parallel. rewrite (C f nd). unfold st at 1. rewrite B, !Nat.eqb_refl. cbn [andb].
  destruct (first_given f nd ops (par0 opt)) as [[|]|]; cbn [option_map negb];
    destruct (snd r), u; cbn [andb negb]; intuition discriminate.
Qed.
Example parallel_target_ex :
  let ops := [POption false; PFactory 2 1 true false; POption true; PHeuristic (Some true) None false;
              PPublic 2 1 (Some true) None true; PPublic 1 1 (Some true) None true] in
  first_given 0 1 ops (par0 true) = Some true /\
  snd (public_kernel 0 1 (Some true) None false (prun ops (par0 true))) = true /\
  first_given 7 1 ops (par0 true) = None /\
  snd (public_kernel 7 1 (Some true) None false (prun ops (par0 true))) = true.
Proof. vm_compute. auto. Qed.

(* the factories that share a kernel module: pushing, reducing and cumulating;
   resampling; grouping; rolling *)
Definition sharing : list (list nat) := [[0; 1; 2; 3; 4]; [5; 6; 7; 8; 9; 10]; [11; 12]; [13; 14; 15; 16]].
Theorem modules_shared : forall f g, f <= 16 -> g <= 16 ->
  module_of f = module_of g <-> exists l, In l sharing /\ In f l /\ In g l.
Proof.
  intros f g Hf Hg.
  assert (E : forall f g, f <= 16 -> g <= 16 ->
    Nat.eqb (module_of f) (module_of g) =
    existsb (fun l => (existsb (Nat.eqb f) l && existsb (Nat.eqb g) l)%bool) sharing).
  { clear. intros f g Hf Hg.
    do 17 (destruct f as [|f]; [do 17 (destruct g as [|g]; [reflexivity|]); lia|]). lia. }
  rewrite <- Nat.eqb_eq, E by assumption. rewrite existsb_exists.
  assert (M : forall x l, existsb (Nat.eqb x) l = true <-> In x l).
  { intros x l. rewrite existsb_exists. split.
    - intros (y & Hy & H). apply Nat.eqb_eq in H. congruence.
    - intros H. exists x. rewrite Nat.eqb_refl. auto. }
  split; intros (l & Hl & H); exists l; split; auto; rewrite andb_true_iff, !M in *; exact H.
Qed.
Example modules_shared_ex : module_of 0 = module_of 3 /\ module_of 3 <> module_of 7.
Proof. split; [reflexivity|discriminate]. Qed.

(* so the parallel version can be selected and still run on one thread, for ever,
   although every thread now asking is safe *)
Theorem selected_runs_serial_refuted : exists ops f nd, Forall no_factory ops /\
  let r := public_kernel f nd (Some true) None false (prun ops (par0 true)) in
  snd r = true /\ runs_parallel f nd (fst r) (snd r) = false.
Proof.
  exists [PPublic 14 1 (Some true) None false; PPublic 1 2 (Some true) None true], 3, 2.
  split; [repeat constructor|]. vm_compute. auto.
Qed.

(* Direct calls of a factory: its cache ignores later changes of the option,
   in both directions. *)
Theorem factory_cache_stale_refuted : exists ops1 ops2 f nd,
  last_option true ops1 = true /\
  snd (public_kernel f nd (Some true) None false (prun ops1 (par0 true))) = false /\
  last_option true ops2 = false /\
  snd (factory f nd true false (prun ops2 (par0 true))) = true.
Proof.
  exists [POption false; PFactory 0 1 true false; POption true], [PFactory 0 1 true false; POption false], 0, 1.
  vm_compute. auto.
Qed.

(* ======================= dtypes (C54) ============================================ *)

(* the dtype that decides: that of out, else the argument, else that of x, else float64 *)
Definition deciding (x : x_arg) (out : option dtype) (dt : option dtype) : dtype :=
  match out, dt, x with
  | Some d, _, _ => d
  | None, Some d, _ => d
  | None, None, XTyped d => d
  | None, None, _ => F64
  end.
Theorem select_dtype_precedence : forall x out dt, x <> XDataset -> dt <> DBad ->
  let arg := match dt with DGiven d => Some d | _ => None end in
  let d := deciding x out arg in
  (d = F32 \/ d = F64 -> select_dtype x out dt = Ok (Some d)) /\
  (d <> F32 /\ d <> F64 -> select_dtype x out dt = Raise EValue).
Proof.
  intros x out dt X D. cbv zeta. unfold select_dtype, deciding.
  assert (C : forall d, (d = F32 \/ d = F64 -> check_dtype d = Ok (Some d)) /\
                        (d <> F32 /\ d <> F64 -> check_dtype d = Raise EValue)).
  { unfold check_dtype. intros d. split; [intros [->| ->]; reflexivity|].
    destruct d; simpl; auto; intros [? ?]; congruence. }
  destruct x as [|dx|]; [congruence| |]; (destruct out as [do|]; [apply C|]);
    (destruct dt as [|dg|]; [apply C|apply C|congruence]).
Qed.
Example select_dtype_ex :
  select_dtype (XTyped F64) (Some F32) (DGiven F64) = Ok (Some F32) /\
  select_dtype (XTyped (DOther 8)) None (DGiven F32) = Ok (Some F32) /\
  select_dtype (XTyped (DOther 8)) None DNone = Raise EValue /\
  select_dtype XPlain None DNone = Ok (Some F64) /\
  select_dtype (XTyped F64) None (DGiven F64swapped) = Raise EValue.
Proof. repeat split. Qed.
(* Dataset: only the argument counts, None means undecided; out is ignored *)
Theorem select_dtype_dataset : forall out dt,
  select_dtype XDataset out dt =
    match dt with
    | DNone => Ok None
    | DBad => Raise EType
    | DGiven F32 => Ok (Some F32)
    | DGiven F64 => Ok (Some F64)
    | DGiven _ => Raise EValue
    end.
Proof. intros out [|[]|]; reflexivity. Qed.
(* the precedence of out fails for a Dataset *)
Theorem select_dtype_out_first_refuted : exists x out dt, select_dtype x (Some out) dt <> Ok (Some out) /\ (out = F32 \/ out = F64).
Proof. exists XDataset, F32, (DGiven F64). split; [discriminate|auto]. Qed.
(* a dtype of the other byte order passes one check but not the other *)
Theorem byte_order_refuted : exists d, validate_floating_dtype (DGiven d) = Ok (Some d) /\
  select_dtype XPlain None (DGiven d) = Raise EValue.
Proof. exists F64swapped. split; reflexivity. Qed.

(* ======================= validation (C64) ======================================== *)

(* accepted moment arguments and what they become *)
Inductive moments_of : ints_arg -> list Z -> Prop :=
  | mom_int m : (0 < m)%Z -> moments_of (IInt m) [m]
  | mom_one m : (0 < m)%Z -> moments_of (IIter [m]) [m]
  | mom_two m n : (0 < m)%Z -> (0 < n)%Z -> moments_of (IIter [m; n]) [m; n].

Theorem validate_mom_exact : forall mom l, validate_mom mom = Ok l <-> moments_of mom l.
Proof.
  intros mom l. split.
  - destruct mom as [z|k|]; simpl; [| |discriminate].
    + unfold is_mom_tuple. simpl. rewrite andb_true_r. destruct (0 <? z)%Z eqn:E; [|discriminate].
      apply Z.ltb_lt in E. intros H. inversion H; subst. constructor; auto.
    + destruct k as [|a [|b [|c k]]]; unfold is_mom_tuple; simpl; try discriminate.
      * rewrite andb_true_r. destruct (0 <? a)%Z eqn:E; [|discriminate].
        apply Z.ltb_lt in E. intros H. inversion H; subst. constructor; auto.
      * rewrite andb_true_r. destruct (0 <? a)%Z eqn:E; [|discriminate]. destruct (0 <? b)%Z eqn:E1; [|discriminate].
        apply Z.ltb_lt in E, E1. intros H. inversion H; subst. constructor; auto.
  - intros H. inversion H; subst; simpl; unfold is_mom_tuple; simpl;
      repeat match goal with K : (0 < _)%Z |- _ => apply Z.ltb_lt in K; rewrite K end; reflexivity.
Qed.
Theorem validate_mom_rejects : forall mom, (forall l, ~ moments_of mom l) ->
  validate_mom mom = Raise EType \/ validate_mom mom = Raise EValue.
Proof.
  intros mom H. destruct (validate_mom mom) as [l|e] eqn:E.
  - apply validate_mom_exact in E. destruct (H l E).
  - destruct mom as [z|k|]; simpl in E.
    + destruct (is_mom_tuple [z]); inversion E; auto.
    + destruct (is_mom_tuple k); inversion E; auto.
    + inversion E. auto.
Qed.
Example validate_mom_ex :
  validate_mom (IInt 3) = Ok [3%Z] /\ validate_mom (IIter [2; 4]%Z) = Ok [2; 4]%Z /\
  validate_mom (IInt 0) = Raise EValue /\ validate_mom (IIter [2; -1]%Z) = Raise EValue /\
  validate_mom (IIter [1; 2; 3]%Z) = Raise EValue /\ validate_mom (IIter []) = Raise EValue.
Proof. repeat split. Qed.

Theorem validate_mom_ndim_exact : forall n d, validate_mom_ndim (Some n) d =
  if (Z.eqb n 1 || Z.eqb n 2)%bool then Ok n else Raise EValue.
Proof. reflexivity. Qed.
Theorem mom_ndim_values : forall n d r, validate_mom_ndim n d = Ok r ->
  (forall v, d = Some v -> v = 1%Z \/ v = 2%Z) -> r = 1%Z \/ r = 2%Z.
Proof.
  intros [n|] d r; simpl.
  - unfold is_mom_ndim. destruct (Z.eqb n 1) eqn:E1; simpl.
    + intros H _. inversion H; subst. apply Z.eqb_eq in E1. auto.
    + destruct (Z.eqb n 2) eqn:E2; [|discriminate]. intros H _. inversion H; subst. apply Z.eqb_eq in E2. auto.
  - destruct d as [d|]; [|discriminate]. intros H D. inversion H; subst. auto.
Qed.

(* number and axes of moments agree whenever they are accepted *)
Theorem mom_ndim_axes_agree : forall ndim axes default n a,
  validate_mom_ndim_and_mom_axes ndim axes default = Ok (n, a) ->
  (forall v, default = Some v -> v = 1%Z \/ v = 2%Z) ->
  (n = 1%Z \/ n = 2%Z) /\ Z.of_nat (List.length a) = n /\
  (axes = None -> a = if Z.eqb n 1 then [-1]%Z else [-2; -1]%Z) /\
  (forall z, axes = Some (IInt z) -> a = [z]) /\ (forall l, axes = Some (IIter l) -> a = l) /\
  (forall m, ndim = Some m -> n = m).
Proof.
  intros ndim axes default n a H D. unfold validate_mom_ndim_and_mom_axes in H.
  destruct axes as [ax|].
  - destruct (validate_mom_axes ax) as [l|e] eqn:E; simpl in H; [|discriminate].
    assert (L : (Z.of_nat (List.length l) = 1%Z \/ Z.of_nat (List.length l) = 2%Z) /\
                (forall z, ax = IInt z -> l = [z]) /\ (forall k, ax = IIter k -> l = k)).
    { destruct ax as [z|k|]; simpl in E.
      - inversion E; subst. repeat split; auto; intros; congruence.
      - destruct (Nat.eqb (List.length k) 1) eqn:E1; simpl in E.
        + apply Nat.eqb_eq in E1. inversion E; subst. rewrite E1. repeat split; auto; congruence.
        + destruct (Nat.eqb (List.length k) 2) eqn:E2; [|discriminate].
          apply Nat.eqb_eq in E2. inversion E; subst. rewrite E2. repeat split; auto; congruence.
      - discriminate. }
    destruct L as (L1 & L2 & L3).
    assert (R : a = l /\ n = Z.of_nat (List.length l) /\ (forall m, ndim = Some m -> n = m)).
    { destruct ndim as [m|].
      - destruct (Z.eqb (Z.of_nat (List.length l)) m) eqn:E1; [|discriminate]. apply Z.eqb_eq in E1.
        inversion H; subst. repeat split; auto. congruence.
      - inversion H; subst. repeat split; auto. congruence. }
    destruct R as (-> & -> & R). repeat split; auto; try congruence.
    + intros z Hz. inversion Hz; subst. auto.
    + intros k Hk. inversion Hk; subst. auto.
  - destruct (validate_mom_ndim ndim default) as [m|e] eqn:E; simpl in H; [|discriminate].
    inversion H; subst n a. pose proof (mom_ndim_values _ _ _ E D) as V.
    assert (R : forall k, ndim = Some k -> m = k).
    { intros k ->. simpl in E. destruct (is_mom_ndim k); inversion E; auto. }
    destruct V as [-> | ->]; repeat split; auto; congruence.
Qed.
Example mom_ndim_axes_ex :
  validate_mom_ndim_and_mom_axes None (Some (IIter [0; 2]%Z)) (Some 1%Z) = Ok (2%Z, [0; 2]%Z) /\
  validate_mom_ndim_and_mom_axes (Some 2%Z) None None = Ok (2%Z, [-2; -1]%Z) /\
  validate_mom_ndim_and_mom_axes (Some 1%Z) (Some (IIter [0; 2]%Z)) None = Raise EValue /\
  validate_mom_ndim_and_mom_axes None None None = Raise EValue.
Proof. repeat split. Qed.

(* orders and shapes *)
Theorem mom_shape_of_mom : forall mom l, moments_of mom l ->
  mom_to_mom_shape mom = Ok (map Z.succ l) /\ mom_shape_to_mom (IIter (map Z.succ l)) = Ok l.
Proof.
  intros mom l H. pose proof H as V. apply validate_mom_exact in V. unfold mom_to_mom_shape. rewrite V. simpl. split.
  - reflexivity.
  - assert (M : moments_of (IIter (map Z.succ l)) (map Z.succ l)) by (inversion H; subst; simpl; constructor; lia).
    apply validate_mom_exact in M. unfold mom_shape_to_mom. rewrite M. simpl. f_equal. rewrite map_map.
    transitivity (map (fun x : Z => x) l); [|apply map_id]. apply map_ext. intros; lia.
Qed.
Example mom_shape_ex : moments_of (IIter [3; 1]%Z) [3; 1]%Z /\ mom_to_mom_shape (IIter [3; 1]%Z) = Ok [4; 2]%Z.
Proof. split; [constructor; lia|reflexivity]. Qed.
(* the other way round only for lengths of at least 2 *)
Theorem mom_of_mom_shape : forall shape l, moments_of shape l -> Forall (fun n => (2 <= n)%Z) l ->
  exists m, mom_shape_to_mom shape = Ok m /\ mom_to_mom_shape (IIter m) = Ok l.
Proof.
  intros shape l H F. pose proof H as V. apply validate_mom_exact in V. exists (map Z.pred l). split.
  - unfold mom_shape_to_mom. rewrite V. reflexivity.
  - assert (M : moments_of (IIter (map Z.pred l)) (map Z.pred l)).
    { inversion H; subst; simpl; repeat match goal with K : Forall _ (_ :: _) |- _ => inversion K; clear K; subst end; constructor; lia. }
    apply mom_shape_of_mom in M. destruct M as [M _]. rewrite M. f_equal. rewrite map_map.
    transitivity (map (fun x : Z => x) l); [|apply map_id]. apply map_ext. intros; lia.
Qed.
Example mom_of_shape_ex : moments_of (IInt 4) [4]%Z /\ Forall (fun n => (2 <= n)%Z) [4]%Z.
Proof. split; [constructor; lia|repeat constructor; lia]. Qed.
Theorem mom_of_mom_shape_refuted : exists shape m, mom_shape_to_mom shape = Ok m /\ mom_to_mom_shape (IIter m) = Raise EValue.
Proof. exists (IInt 1), [0]%Z. split; reflexivity. Qed.

(* select_mom_ndim: a conflict raises, except that 0 counts as not given *)
Theorem select_mom_ndim_exact : forall mom l ndim, moments_of mom l ->
  let n := Z.of_nat (List.length l) in
  select_mom_ndim (Some mom) ndim =
    match ndim with
    | Some m => if (Z.eqb m 0 || Z.eqb m n)%bool then Ok n else Raise EValue
    | None => Ok n
    end.
Proof.
  intros mom l ndim H. cbv zeta. unfold select_mom_ndim.
  assert (M : mom_to_mom_ndim mom = Ok (Z.of_nat (List.length l))) by (inversion H; subst; reflexivity).
  assert (V : validate_mom_ndim (Some (Z.of_nat (List.length l))) None = Ok (Z.of_nat (List.length l)))
    by (inversion H; subst; reflexivity).
  rewrite M. simpl rbind. destruct ndim as [m|]; [|exact V].
  destruct (Z.eqb m 0); simpl; [exact V|]. rewrite Z.eqb_sym. destruct (Z.eqb m (Z.of_nat (List.length l))); simpl; [exact V|reflexivity].
Qed.
Theorem select_mom_ndim_zero_refuted : exists mom, select_mom_ndim (Some mom) (Some 0%Z) = Ok 2%Z /\
  select_mom_ndim None (Some 0%Z) = Raise EValue.
Proof. exists (IIter [2; 3]%Z). split; reflexivity. Qed.
