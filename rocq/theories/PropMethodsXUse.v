(* Histories of pushes onto objects of class CentralMomentsData (C134, C135). *)
From Coq Require Import String Permutation.
From Verif Require Import Base BaseLemmas ModelPush ModelKernels ModelIndex ModelAccum ModelAxes ModelState ModelParams ModelNd ModelWrap ModelLabel ModelMethods ModelConstruct ModelMethodsX
  Spec SpecAxes SpecNd ProofSpec PropReduce PropWrap PropLabelled PropNd PropNdVals PropNdValsUse SpecLabel SpecLabelTwo SpecLabelVals SpecMethods SpecMethodsX
  Laws ProofAxes ProofArrays ProofMulti ProofNd PropParams ProofNdVals ProofLabel ProofLabelMany ProofLabelVals ProofMethods PropMethods PropMethodsUse PropLabelVals PropConstructMake ProofMethodsX PropMethodsX.
Local Open Scope string_scope.
Local Open Scope nat_scope.

Lemma lines_up_ext core cs outer sz sz' o : (forall n, In n outer -> sz n = sz' n) -> lines_up core cs outer sz o -> lines_up core cs outer sz' o.
Proof.
  intros E. destruct o as [z|t]; cbn [lines_up].
  - intros (H1 & H2 & H3 & H4 & H5). repeat (split; [assumption|]). split; [|exact H5]. intros n Hn Ho. rewrite <- E by exact Ho. now apply H4.
  - intros (H1 & sd & H2 & H3). split; [exact H1|]. exists sd. split; [exact H2|]. now rewrite <- (map_ext_in _ _ _ E).
Qed.
Lemma value_given_ext d outer sz sz' r o : (forall n, In n (outer ++ [d]) -> sz n = sz' n) -> match o with Labelled u => incl (x_dims u) (outer ++ [d]) | Plain t => tensor_ok t end ->
  value_given d outer sz r o -> value_given d outer sz' r o.
Proof.
  intros E I. destruct o as [z|t]; cbn [value_given].
  - intros (H1 & H2 & H3). repeat (split; [assumption|]). intros n Hn. rewrite <- E by now apply I. now apply H3.
  - intros [H|(H1 & (A1 & A2 & A3 & A4 & A5) & H3)]; [now left|]. right. split; [exact H1|]. split; [|rewrite <- E; [exact H3|apply in_or_app; right; now left]]. repeat (split; [assumption|]). intros p Hp. rewrite <- E; [now apply A5|].
    apply in_or_app. left. apply nth_In. unfold aligned_with. cbn zeta. rewrite seq_length. set (ex := except_nat (seq 0 (tndim t)) [plain_axis t r]) in *. cbn zeta in A4. rewrite seq_length in A4.
    pose proof (index_of_lt p ex Hp) as Li. rewrite seq_nth by lia. lia.
Qed.
Lemma named_call_at_ext {A V} (P : packer A) (R : reader V) md outer sz sz' call at_ : (forall n, In n outer -> sz n = sz' n) ->
  named_call_at P R md outer sz call at_ -> named_call_at P R md outer sz' call at_.
Proof.
  intros E H. assert (EM : map sz outer = map sz' outer) by now apply map_ext_in. destruct H.
  - constructor. eapply lines_up_ext; eauto.
  - constructor; [eapply lines_up_ext; eauto|now rewrite <- EM].
  - constructor; auto. eapply lines_up_ext; eauto.
  - eapply nc_plain_datas; eauto. now rewrite <- EM.
  - constructor; [assumption|]. eapply Forall_impl; [|eassumption]. intros o. now apply lines_up_ext.
  - eapply nc_vals; eauto. intros o Ho. destruct (H3 o Ho) as [G1 G2]. split; [|exact G2]. eapply value_given_ext; [|exact G2|exact G1]. intros m Hm. unfold result_size.
    destruct (String.eqb_spec m d) as [->|Q]; [reflexivity|]. apply E. apply in_app_or in Hm. destruct Hm as [Hm|[Hm|[]]]; [exact Hm|congruence].
  - eapply nc_plain_vals; eauto. rewrite <- EM. assumption.
Qed.
Lemma size_outside x n : x_ok x -> ~ In n (x_dims x) -> dim_size x n = 0.
Proof.
  intros (_ & _ & L) H. unfold dim_size. apply nth_overflow. rewrite <- L. clear L. induction (x_dims x) as [|m l IH]; [cbn; lia|].
  cbn [position List.length]. destruct (String.eqb_spec n m) as [->|Q]; [elim H; now left|]. assert (X : ~ In n l) by (intros Q'; apply H; now right). specialize (IH X). lia.
Qed.

(* C134: an object after any sequence of push calls holds at each position what the
   operations give there, in order; an error occurs only when some position has one *)
Theorem push_history_named : forall {A V} (K : pusher A V) ok P R, values_array K ok P R ->
  forall stretch md c, xholds c md -> map (dim_size (cx_obj c)) md = pk_shape P ->
  let x := cx_obj c in let outer := except_name (x_dims x) md in
  forall calls ats, Forall2 (named_call_at P R md outer (dim_size x)) calls ats ->
  match foldR (run_named K P R stretch) calls c with
  | Ok c' => xholds c' md /\ (c' = c \/ x_dims (cx_obj c') = (outer ++ md)%list) /\ (forall n, In n (x_dims x) -> dim_size (cx_obj c') n = dim_size x n) /\
      forall env, inside_names (dim_size x) outer env ->
        run_ops K (map (fun at_ => at_ env) ats) (moments_named P x md env) = Some (moments_named P (cx_obj c') md env)
  | Raise e => e = EZeroDiv /\ exists env, inside_names (dim_size x) outer env /\ run_ops K (map (fun at_ => at_ env) ats) (moments_named P x md env) = None
  end.
Proof.
  intros A V K ok P R VA stretch md c HC HS x outer calls ats H. subst x outer. revert c HC HS H. revert ats.
  induction calls as [|call calls IH]; intros ats c HC HS H; inversion H as [|? at_ ? ats' Hc H']; subst; cbn [foldR].
  - split; [exact HC|]. split; [now left|]. split; [reflexivity|]. intros env _. reflexivity.
  - pose proof (push_call_named K ok P R VA stretch c md HC HS call at_ Hc) as X. unfold pushed_named in X. cbv zeta in X. set (outer := except_name (x_dims (cx_obj c)) md) in *.
    destruct (run_named K P R stretch c call) as [c1|e]; cbn [rbind].
    + destruct X as (H1 & D1 & S1 & X).
      assert (S2 : forall n, dim_size (cx_obj c1) n = dim_size (cx_obj c) n).
      { intros n. destruct (in_dec string_dec n (x_dims (cx_obj c))) as [Q|Q]; [now apply S1|]. rewrite !size_outside; [reflexivity|apply HC|exact Q|apply H1|].
        rewrite D1. intros Q'. apply Q. eapply Permutation_in; [apply (outer_perm c md HC)|exact Q']. }
      assert (O1 : except_name (x_dims (cx_obj c1)) md = outer).
      { rewrite D1. unfold except. rewrite filter_app. rewrite filter_all, (filter_none _ md); [apply app_nil_r| |].
        - intros n Hn. destruct (in_dec string_dec n md); [reflexivity|contradiction].
        - intros n Hn. destruct (in_dec string_dec n md) as [Q|Q]; [|reflexivity]. apply except_name_In in Hn. tauto. }
      specialize (IH ats' c1 H1). rewrite (map_ext _ _ S2) in IH. specialize (IH HS). rewrite O1 in IH.
      assert (F1 : Forall2 (named_call_at P R md outer (dim_size (cx_obj c1))) calls ats').
      { clear - H' S2. induction H'; constructor; auto. eapply named_call_at_ext; [|eassumption]. intros n _. symmetry. apply S2. }
      specialize (IH F1).
      assert (IE : forall env, inside_names (dim_size (cx_obj c)) outer env <-> inside_names (dim_size (cx_obj c1)) outer env).
      { intros env. split; intros Q n Hn; [rewrite S2|rewrite <- S2]; now apply Q. }
      destruct (foldR _ calls c1) as [c2|e].
      * destruct IH as (H2 & D2 & S3 & IH). split; [exact H2|]. split; [right; destruct D2 as [->|D2]; [exact D1|exact D2]|]. split.
        -- intros n Hn. rewrite S3; [apply S2|]. rewrite D1. eapply Permutation_in; [symmetry; apply (outer_perm c md HC)|exact Hn].
        -- intros env He. cbn [map]. unfold run_ops. cbn [foldM]. rewrite (X env He). cbn [obind]. apply IH. now apply IE.
      * destruct IH as [Ee (env & He & IH)]. split; [exact Ee|]. exists env. apply IE in He. split; [exact He|]. cbn [map]. unfold run_ops. cbn [foldM]. rewrite (X env He). exact IH.
    + destruct X as [Ee (env & He & X)]. split; [exact Ee|]. exists env. split; [exact He|]. cbn [map]. unfold run_ops. cbn [foldM]. now rewrite X.
Qed.

(* zeros of labelled objects *)
Lemma zeros_named {A V} (K : pusher A V) ok P R : values_array K ok P R -> forall s dims mom_dims vd md,
  names_given (default_names "dim" (List.length s)) dims vd -> List.length vd = List.length s ->
  names_given (default_names "mom" (List.length (pk_shape P))) mom_dims md -> List.length md = List.length (pk_shape P) -> NoDup (vd ++ md) ->
  exists c0, cx_zeros (IIter (map (fun n => (Z.of_nat n - 1)%Z) (pk_shape P))) s dims mom_dims = Ok c0 /\ xholds c0 md /\ x_dims (cx_obj c0) = (vd ++ md)%list /\
    map (dim_size (cx_obj c0)) vd = s /\ map (dim_size (cx_obj c0)) md = pk_shape P /\
    forall env, inside_names (dim_size (cx_obj c0)) vd env -> moments_named P (cx_obj c0) md env = p_zero K.
Proof.
  intros VA s dims mom_dims vd md Gd L1 Gm L2 N. pose proof (va_array _ _ _ _ VA) as MA.
  assert (LP : List.length (pk_shape P) = 1 \/ List.length (pk_shape P) = 2) by (destruct VA; cbn; auto).
  assert (FP : Forall (fun n => 2 <= n) (pk_shape P)) by (destruct VA; cbn; repeat apply Forall_cons; try apply Forall_nil; lia).
  destruct (zeros_object (pk_shape P) s LP FP) as (c0 & E0 & H0 & Z0). destruct (to_dataarray_object c0 s (pk_shape P) dims mom_dims vd md H0 Gd L1 Gm L2 N) as (d & Ed & Hd & Dd & _ & S1 & S2 & At).
  exists d. unfold cx_zeros. rewrite E0. cbn [rbind]. split; [exact Ed|]. repeat (split; [assumption|]). intros env He. apply (zero_cell K ok P MA). intros m Vm.
  rewrite At. unfold mom_entry. apply Z0. apply NoDup_app_iff in N. destruct N as (N1 & N2 & N3). apply Forall2_app.
  - rewrite <- S1. apply (inside_names_valid (dim_size (cx_obj d)) vd). intros n Hn. rewrite name_bind_out by (intros Q; now apply (N3 n)). now apply He.
  - rewrite map_name_bind; [exact Vm|exact N2|rewrite L2; now apply valid_length].
Qed.

(* C135: a labelled object that starts at zero and receives any calls of the push
   methods holds, at each position, the moments of all the samples pushed there *)
Theorem labelled_object_holds_all_samples : forall {A V} (K : pusher A V) ok P R, values_array K ok P R ->
  forall stretch s dims mom_dims vd md,
  names_given (default_names "dim" (List.length s)) dims vd -> List.length vd = List.length s ->
  names_given (default_names "mom" (List.length (pk_shape P))) mom_dims md -> List.length md = List.length (pk_shape P) -> NoDup (vd ++ md) ->
  forall sz, map sz vd = s ->
  forall calls ats (xws : (sname -> nat) -> list (list (V * Qc))), Forall2 (named_call_at P R md vd sz) calls ats ->
  (forall env, inside_names sz vd env -> Forall2 (pushes K) (map (fun at_ => at_ env) ats) (xws env) /\ all_nonneg (map snd (concat (xws env)))) ->
  exists c0 c, cx_zeros (IIter (map (fun n => (Z.of_nat n - 1)%Z) (pk_shape P))) s dims mom_dims = Ok c0 /\
    foldR (run_named K P R stretch) calls c0 = Ok c /\ xholds c md /\ x_dims (cx_obj c) = (vd ++ md)%list /\ (forall n, In n vd -> dim_size (cx_obj c) n = sz n) /\
    forall env, inside_names sz vd env -> reduce_vals K (concat (xws env)) = Some (moments_named P (cx_obj c) md env).
Proof.
  intros A V K ok P R VA stretch s dims mom_dims vd md Gd L1 Gm L2 N sz Es calls ats xws HF HX. pose proof (va_array _ _ _ _ VA) as MA.
  destruct (zeros_named K ok P R VA s dims mom_dims vd md Gd L1 Gm L2 N) as (c0 & E0 & H0 & D0 & S1 & S2 & Z0). exists c0.
  assert (O0 : except_name (x_dims (cx_obj c0)) md = vd).
  { rewrite D0. apply NoDup_app_iff in N. destruct N as (_ & _ & N3). unfold except. rewrite filter_app. rewrite filter_all, (filter_none _ md); [apply app_nil_r| |].
    - intros n Hn. destruct (in_dec string_dec n md); [reflexivity|contradiction].
    - intros n Hn. destruct (in_dec string_dec n md) as [Q|Q]; [elim (N3 n Hn Q)|reflexivity]. }
  assert (SE : forall n, In n vd -> dim_size (cx_obj c0) n = sz n) by (apply map_ext_in_iff; congruence).
  assert (F0 : Forall2 (named_call_at P R md vd (dim_size (cx_obj c0))) calls ats).
  { clear - HF SE. induction HF; constructor; auto. eapply named_call_at_ext; [|eassumption]. intros n Hn. symmetry. now apply SE. }
  pose proof (push_history_named K ok P R VA stretch md c0 H0 S2 calls ats) as X. cbv zeta in X. rewrite O0 in X. specialize (X F0).
  assert (IE : forall env, inside_names (dim_size (cx_obj c0)) vd env <-> inside_names sz vd env).
  { intros env. split; intros Q n Hn; [rewrite <- SE|rewrite SE]; auto. }
  destruct (foldR _ calls c0) as [c|e].
  - exists c. split; [exact E0|]. split; [reflexivity|]. destruct X as (Hc & Dc & Sc & X). split; [exact Hc|]. split; [destruct Dc as [->|Dc]; assumption|].
    split; [intros n Hn; rewrite Sc; [now apply SE|rewrite D0; apply in_or_app; now left]|]. intros env He.
    destruct (HX env He) as [Fp Np]. apply IE in He. rewrite <- (any_push_history_is_one_reduction K ok (ma_kernel _ _ _ MA) _ _ Fp Np), <- (X env He), (Z0 env He). reflexivity.
  - exfalso. destruct X as [_ (env & He & X)]. destruct (HX env (proj1 (IE env) He)) as [Fp Np].
    rewrite (Z0 env He), (any_push_history_is_one_reduction K ok (ma_kernel _ _ _ MA) _ _ Fp Np) in X.
    destruct (reduce_total K ok P R VA _ Np) as (r & Er). congruence.
Qed.
