(* Functions of two labelled arrays: results by name. *)
From Coq Require Import String Permutation.
From Verif Require Import Base BaseLemmas ModelPush ModelKernels ModelIndex ModelAxes ModelParams ModelWrap ModelNd ModelLabel Spec SpecAxes SpecNd SpecLabel SpecLabelTwo
  ProofAxes ProofArrays ProofIndex ProofMulti ProofNd PropAxes PropParams PropWrap PropLabelled PropNd ProofNdAt ProofLabel ProofLabelMany PropLabel.
Local Open Scope string_scope.
Local Open Scope nat_scope.

Lemma counts_array freq rep d nrep ndat outer : counts_named freq rep d nrep ndat -> (forall n, In n outer -> n <> rep /\ n <> d) -> NoDup outer ->
  exists t, match freq with Labelled z => broadcast_compat outer [rep; d] z | Plain t => Ok t end = Ok t /\
    tensor_ok t /\ tndim t = 2 /\ shape_of t 0 = nrep /\ shape_of t 1 = ndat /\ table t = counts_table freq rep d nrep ndat.
Proof.
  intros H No N. destruct freq as [z|t].
  - destruct H as (Hz & Q & Iz & S1 & S2).
    assert (T : trim (x_dims z) outer = []).
    { destruct (trim_spec (x_dims z) outer) as (pre & E & Hp). destruct (trim (x_dims z) outer) as [|m l] eqn:El; [reflexivity|]. exfalso.
      assert (M : In m (x_dims z)). { clear - El. induction outer as [|n o IH]; [discriminate|]. cbn [trim] in El. destruct (smem n (x_dims z)) eqn:S; [inversion El; subst; now apply smem_In|auto]. }
      assert (Mo : In m outer) by (rewrite E; apply in_or_app; right; now left). apply Iz in M. destruct (No m Mo). tauto. }
    destruct (broadcast_placed z outer [rep; d] Hz) as (t & E & P1 & P2 & P3).
    + apply NoDup_app_iff. split; [exact N|]. split; [constructor; [intros [|[]]; congruence|constructor; [intros []|constructor]]|]. intros n Hn [<-|[<-|[]]]; destruct (No _ Hn); congruence.
    + intros n Hn. apply Iz in Hn. apply in_or_app. right. destruct Hn as [->| ->]; cbn; auto.
    + intros n [<-|[<-|[]]]; apply Iz; auto.
    + rewrite T in P2, P3. cbn [app] in P2, P3. exists t. split; [exact E|]. split; [exact P1|].
      assert (In1 : smem rep (x_dims z) = true) by (apply smem_In, Iz; auto). assert (In2 : smem d (x_dims z) = true) by (apply smem_In, Iz; auto).
      assert (Sh : tshape t = [nrep; ndat]) by (rewrite P2; cbn [map]; unfold sizes_of; now rewrite In1, In2, S1, S2).
      split; [unfold tndim; now rewrite Sh|]. split; [unfold shape_of; now rewrite Sh|]. split; [unfold shape_of; now rewrite Sh|].
      unfold table, counts_table. unfold shape_of. rewrite Sh. cbn [nth]. apply map_ext_in. intros i Hi. apply in_seq in Hi. apply map_ext_in. intros j Hj. apply in_seq in Hj.
      set (env := fun n => if String.eqb n rep then i else j).
      assert (E1 : env rep = i) by (unfold env; now rewrite String.eqb_refl). assert (E2 : env d = j) by (unfold env; destruct (String.eqb_spec d rep); congruence).
      rewrite <- (P3 env). { cbn [map]. unfold idx_of. now rewrite In1, In2, E1, E2. }
      intros n Hn. apply Iz in Hn. destruct Hn as [->| ->]; [rewrite E1, S1|rewrite E2, S2]; lia.
  - destruct H as (H1 & H2 & H3 & H4). exists t. split; [reflexivity|]. split; [exact H1|]. split; [exact H2|]. split; [exact H3|]. split; [exact H4|]. unfold table, counts_table. now rewrite H3, H4.
Qed.

Lemma resample_back {A} (P : packer A) (HP : packer_ok P) x md d (HM : labelled_moments P md x) (Hd : In d (x_dims x)) (Nd : ~ In d md)
    {B T} (dflt : T) (val : B -> list nat -> T) run sz rep to_end a r : rep = d \/ ~ In rep (x_dims x) -> nth_error (x_dims x) a = Some d ->
  by_name dflt val run (except_name (x_dims x) (d :: md) ++ rep :: md) sz rep md r ->
  by_name dflt val run (result_dims to_end (x_dims x) d rep md) sz rep md (rbind r (fun g =>
    if to_end then Ok g
    else
      rbind (transpose_like dflt (x_dims x) (fun n => if String.eqb n d then rep else n) [] [] g) (fun g =>
      let order := (firstn a (x_dims x) ++ rep :: skipn (S a) (x_dims x))%list in
      rbind (infix_dims (map Some order) (lg_dims g)) (fun _ => l_transpose dflt (map Some order) g)))).
Proof.
  intros Hr Ea H. destruct to_end; [destruct r; exact H|].
  assert (Nx : NoDup (x_dims x)) by apply HM.
  assert (Or : (firstn a (x_dims x) ++ rep :: skipn (S a) (x_dims x))%list = result_dims false (x_dims x) d rep md).
  { cbn [result_dims]. destruct (nth_error_split _ _ Ea) as (l1 & l2 & El & La). rewrite El. rewrite <- La. rewrite firstn_app, Nat.sub_diag, firstn_all. cbn [firstn]. rewrite app_nil_r.
    replace (skipn (S (List.length l1)) (l1 ++ d :: l2)) with l2 by (rewrite skipn_app, skipn_all2 by lia; replace (S (List.length l1) - List.length l1) with 1 by lia; reflexivity).
    rewrite El in Nx. rewrite map_app. cbn [map]. rewrite String.eqb_refl. apply NoDup_remove in Nx. destruct Nx as [_ Nx].
    assert (X : forall l, incl l (l1 ++ l2) -> map (fun n => if String.eqb n d then rep else n) l = l).
    { intros l I. transitivity (map (fun n : sname => n) l); [|apply map_id]. apply map_ext_in. intros n Hn. destruct (String.eqb_spec n d) as [->|]; [elim Nx; auto|reflexivity]. }
    rewrite !X; [reflexivity| |]; intros n Hn; apply in_or_app; auto. }
  cbv zeta. rewrite Or. eapply by_name_transpose; [| |exact H].
  { intros n. apply (result_dims_In P x md d HM Hd Nd rep n Hr). }
  intros g G. destruct (back_named P x md d HM Hd Nd dflt sz rep g Hr G) as (g1 & E1 & G1 & A1). rewrite E1. cbn [rbind].
  set (rds := result_dims false (x_dims x) d rep md) in *.
  assert (Nr : NoDup rds).
  { pose proof (lm_NoDup P x md d HM Hd Nd) as N.
    assert (N' : NoDup (except_name (x_dims x) (d :: md) ++ rep :: md)).
    { destruct Hr as [->|Hr]; [exact N|]. apply NoDup_app_iff in N. destruct N as (N1 & N2 & N3). apply NoDup_app_iff. split; [exact N1|].
      inversion N2; subst. split; [constructor; [|assumption]; intros Q; apply Hr; now apply HM|]. intros n Hn [<-|Q]; [|apply (N3 n Hn); now right]. apply except_name_In in Hn. tauto. }
    apply (@NoDup_incl_NoDup _ _ rds N').
    - unfold rds. cbn [result_dims]. rewrite map_length. pose proof (Permutation_length (lm_perm P x md d HM Hd Nd)) as L. rewrite app_length in *. cbn [List.length] in *. lia.
    - intros n Hn. now apply (result_dims_In P x md d HM Hd Nd rep n Hr). }
  destruct G1 as (D1 & G2 & G3). rewrite D1. rewrite infix_exact by (auto; apply incl_refl). cbn [rbind].
  destruct (l_transpose_ok dflt (map Some rds) sz rds rds g1) as (g2 & E2 & G2' & _ & A2); [split; [exact D1|split; assumption]|exact Nr| |].
  { rewrite known_some, filter_all by (intros n Hn; now apply smem_In). apply infix_exact; auto; apply incl_refl. }
  exists g2. split; [exact E2|]. split; [exact G2'|]. intros env Hi. rewrite A2; [now apply A1|]. intros n Hn. apply Hi. now apply (result_dims_In P x md d HM Hd Nd rep n Hr).
Qed.

Theorem resample_named : forall {A V} (K : pusher A V) ok P, moment_array K ok P ->
  forall freq rep nrep ndat md axis dim d to_end x, labelled_moments P md x -> chooses (List.length md) axis dim d x -> ~ In d md ->
  counts_named freq rep d nrep ndat ->
  let r := x_resample_data K P (params_for md) freq rep axis dim to_end x in
  (ndat = dim_size x d -> ~ In rep (x_dims x) \/ rep = d /\ nrep = ndat ->
   by_name 0%Qc (pk_unpack P) (fun env => of_opt EZeroDiv (resample_data K (counts_table freq rep d nrep ndat) (rows_named P x [d] md env)))
     (result_dims to_end (x_dims x) d rep md) (result_size (dim_size x) rep nrep) rep md r) /\
  (ndat <> dim_size x d -> ~ In rep (x_dims x) \/ rep = d -> r = Raise EValue) /\
  (In rep (x_dims x) -> rep <> d -> ~ In rep md -> r = Raise EValue).
Proof.
  intros A V K ok P HMA freq rep nrep ndat md axis dim d to_end x HM HC Nd HF r. pose proof (ma_packer _ _ _ HMA) as HP. unfold r, x_resample_data. clear r.
  begin_with (@start_named _ _ K ok P HMA x md axis dim d HM HC Nd). pose proof (chooses_dim _ _ _ _ _ HC) as Hd.
  unfold core_dims, iter_dims. cbn [params_for xp_dims rbind app].
  pose (outer := except_name (x_dims x) (d :: md)). assert (Nx : NoDup (x_dims x)) by apply HM.
  pose (SZ := fun n => if String.eqb n rep then (if String.eqb rep d then dim_size x d else nrep) else dim_size x n).
  assert (Hsz : rep = d \/ ~ In rep (x_dims x) -> forall n, In n (x_dims x) -> SZ n = dim_size x n).
  { intros Hr n Hn. unfold SZ. destruct (String.eqb_spec n rep) as [->|]; [|reflexivity]. destruct (String.eqb_spec rep d) as [->|]; [reflexivity|tauto]. }
  assert (Arr : rep = d \/ ~ In rep (x_dims x) -> exists t, match freq with Labelled z => broadcast_compat outer [rep; d] z | Plain t => Ok t end = Ok t /\
    tensor_ok t /\ tndim t = 2 /\ shape_of t 0 = nrep /\ shape_of t 1 = ndat /\ table t = counts_table freq rep d nrep ndat).
  { intros Hr. apply counts_array; [exact HF| |now apply NoDup_filter]. intros n Hn. apply except_name_In in Hn. destruct Hn as [H1 H2]. split; [|intros ->; apply H2; now left]. intros ->. destruct Hr as [->|Hr]; [apply H2; now left|tauto]. }
  assert (Hmore : ndat = dim_size x d -> (rep = d \/ ~ In rep (x_dims x)) -> forall z, In z (labelled_of (map fst [(freq, [rep; d])])) -> x_ok z /\ forall n, In n (x_dims z) ->
     (In n (x_dims x) \/ In n (d :: md ++ flat_map snd [(freq, [rep; d])] ++ rep :: md)) /\ (~ In n [] -> dim_size z n = SZ n)).
  { intros Hn Hr z Hz. destruct freq as [z'|t]; [|destruct Hz]. destruct Hz as [<-|[]]. destruct HF as (F1 & F2 & F3 & F4 & F5). split; [exact F1|]. intros n Hz. apply F3 in Hz. split.
    - right. cbn. rewrite in_app_iff. cbn. destruct Hz as [->| ->]; tauto.
    - intros _. unfold SZ. destruct Hz as [->| ->]; [rewrite String.eqb_refl; destruct (String.eqb_spec rep d); congruence|]. destruct (String.eqb_spec d rep); congruence. }
  assert (Hcore : rep = d \/ ~ In rep (x_dims x) -> forall n, In n (flat_map snd [(freq, [rep; d])]) -> In n (x_dims x) -> In n (d :: md)).
  { intros Hr n Hn Hx. cbn in Hn. destruct Hn as [<-|[<-|[]]]; [|now left]. destruct Hr as [->|Hr]; [now left|tauto]. }
  split; [|split].
  - intros Hn Hr0. assert (Hr : rep = d \/ ~ In rep (x_dims x)) by tauto. apply (resample_back P HP x md d HM Hd Nd); auto.
    destruct (Arr Hr) as (tf & Ef & F1 & F2 & F3 & F4 & F5).
    apply (operands P HP x md d HM Hd Nd [(freq, [rep; d])] [] rep nrep SZ) with (ts := [tf])
      (run := fun t e => of_opt EZeroDiv (resample_data K (counts_table freq rep d nrep ndat) (rows_along P t [List.length outer] (seq (S (List.length outer)) (List.length md)) e))); auto.
    + intros _ Q. unfold SZ. rewrite String.eqb_refl. destruct (String.eqb_spec rep d) as [->|]; [|reflexivity]. destruct Hr0 as [Hr0|[_ Hr0]]; [tauto|congruence].
    + cbn [mapR fst snd]. fold outer. rewrite Ef. reflexivity.
    + intros t a' M HA Sd -> -> _ _ HR. split.
      * cbn [arg nth axis_value]. rewrite (resample_at_nd K P _ _ _ _ t HA tf) by lia. rewrite <- F5. destruct (resample_array K ok P HMA tf _ _ false _ _ t HA F1 F2) as [R1 _]. rewrite <- F3. apply R1. rewrite F4, Sd. exact Hn.
      * intros e env He Hi. unfold outer. now rewrite (HR e env He Hi).
  - intros Hn Hr0. assert (Hr : rep = d \/ ~ In rep (x_dims x)) by tauto. destruct (Arr Hr) as (tf & Ef & F1 & F2 & F3 & F4 & F5).
    destruct freq as [z|tp].
    + destruct HF as (Z1 & Z2 & Z3 & Z4 & Z5).
      rewrite (apply_ufunc_conflict _ _ [] _ x z d); [reflexivity|cbn; auto|cbn; auto|apply HM|exact Z1|exact Hd|apply Z3; now right|intros []|congruence].
    + rewrite (operands_raise P x md d HM Hd Nd [(Plain tp, [rep; d])] [] rep (SZ rep) SZ) with (ts := [tf]) (e := EValue); auto.
      * intros z [].
      * cbn [mapR fst]. now rewrite Ef.
      * intros t a' M HA Sd _ _ _ _. cbn [arg nth axis_value]. rewrite (resample_at_nd K P _ _ _ _ t HA tf) by lia. destruct (resample_array K ok P HMA tf _ _ false _ _ t HA F1 F2) as [_ R2]. rewrite R2; [reflexivity|]. now rewrite F4, Sd.
  - intros I1 I2 I3. unfold apply_ufunc. destruct (unified_dim_sizes _ _) as [s|e] eqn:U.
    + cbn [rbind flat_map snd app mapR fst]. set (bd := filter _ (map fst s)).
      assert (Bd : ~ In rep bd). { unfold bd. intros Q. apply filter_In in Q. destruct Q as [_ Q]. apply Bool.negb_true_iff, smem_false in Q. apply Q. right. apply in_or_app. right. now left. }
      rewrite (broadcast_extra bd (d :: md) x rep); [reflexivity|exact I1|exact Bd|intros [|]; congruence].
    + cbn [rbind]. f_equal. now apply unified_err in U.
Qed.
