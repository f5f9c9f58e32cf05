(* Functions of labelled arrays of values: results by name. *)
From Coq Require Import String Permutation.
From Verif Require Import Base BaseLemmas ModelPush ModelKernels ModelIndex ModelAxes ModelSelect ModelParams ModelWrap ModelNd ModelLabel Spec SpecAxes SpecNd SpecLabel SpecLabelTwo SpecLabelVals
  Laws ProofSpec ProofAxes ProofArrays ProofIndex ProofMulti ProofNd PropAxes PropParams PropWrap PropLabelled PropNd ProofNdVals PropNdVals ProofLabel ProofLabelMany ProofLabelReduce PropLabel PropLabelReduce PropLabelTwo PropLabelJack PropLabelExp ProofLabelVals.
Local Open Scope string_scope.
Local Open Scope nat_scope.

Lemma map_Forall2 {X Y Z} (Q : X -> Y -> Prop) (f : X -> Z) (g : Y -> Z) l l' : Forall2 Q l l' -> (forall a b, Q a b -> f a = g b) -> map f l = map g l'.
Proof. intros F H. induction F as [|a b l l' Hab F IH]; [reflexivity|]. cbn [map]. now rewrite IH, (H a b Hab). Qed.
Lemma position_nth (l : list sname) a d : NoDup l -> nth_error l a = Some d -> position String.eqb d l = a.
Proof.
  intros N E. assert (H : In d l) by (eapply nth_error_In; eauto). destruct (pos_lt l d H) as [P1 P2]. assert (L : a < List.length l) by (apply nth_error_Some; congruence).
  apply (proj1 (NoDup_nth l "") N); [exact P1|exact L|]. rewrite P2. symmetry. apply nth_error_nth. exact E.
Qed.

Lemma xprepare_eq n axis dim d x others others' : chooses 0 axis dim d x -> x_ok x -> S (List.length others) = n ->
  mapR (fun o => match o with Labelled _ => Ok o | Plain t => rmap Plain (prepare_secondary (-1 - Z.of_nat (from_last d x)) (dim_size x d) true t) end) others = Ok others' ->
  xprepare_values n axis dim x others = Ok (d, others').
Proof.
  intros HC Hx Hn E. unfold xprepare_values. rewrite Hn, Nat.eqb_refl. cbn [negb]. pose proof (chooses_dim _ _ _ _ _ HC) as Hd. pose proof (proj1 (proj2 Hx)) as N.
  assert (S : select_axis_dim default_x_params (XArr (x_dims x)) axis dim Missing Missing false = Ok (position String.eqb d (x_dims x), d)).
  { apply select_axis_dim_exact; [exact N|]. destruct (pos_lt _ _ Hd) as [P1 P2]. split; [rewrite <- P2 at 2; now apply nth_error_nth'|]. split; [right; intros []|].
    destruct HC as [(H1 & H2 & _)|(H1 & ax & a & H2 & H3 & H4)]; [right; auto|]. left. exists ax. split; [exact H2|]. split; [exact H1|]. rewrite (position_nth _ a d N H4). exact H3. }
  rewrite S. cbn [rbind]. rewrite (sizes_named x d) by assumption. cbn [rbind].
  assert (Pn : positive_to_negative_index (Z.of_nat (position String.eqb d (x_dims x))) (Z.of_nat (List.length (x_dims x))) = (-1 - Z.of_nat (from_last d x))%Z).
  { destruct (pos_lt _ _ Hd) as [P1 _]. unfold positive_to_negative_index, from_last. destruct (Z.ltb_spec (Z.of_nat (position String.eqb d (x_dims x))) 0); lia. }
  rewrite Pn, E. reflexivity.
Qed.

Section Start.
  Context {A : Type} (P : packer A).
  Variables (axis : marg axis_arg) (dim : marg sname) (d : sname) (md : list sname) (sz : sname -> nat) (x : xarr) (others : list xop).
  Hypothesis HC : chooses 0 axis dim d x.
  Hypothesis HV : operands_given P d md sz x others.
  Let ops := Labelled x :: others.
  Let outer := other_names d ops.
  Let s := map sz (outer ++ [d]).
  Let r := from_last d x.

  Lemma vg_x : x_ok x /\ In d (x_dims x) /\ dim_size x d = sz d.
  Proof. destruct HV as (H & _). destruct (H (Labelled x)) as (H1 & H2 & H3); [now left|]. split; [exact H1|]. split; [exact H2|now apply H3]. Qed.
  Lemma vg_len : List.length s - 1 - 0 = List.length outer /\ List.length s = S (List.length outer).
  Proof. unfold s. rewrite map_length, app_length. cbn. lia. Qed.
  Lemma vg_NoDup : NoDup (outer ++ d :: md).
  Proof. destruct HV as (H1 & H2 & H3 & _). apply (full_NoDup x others d md H2 H3); [now left|]. exact (d_not_moment x others d md sz r H1 H3). Qed.
  Lemma vg_d : ~ In d md.
  Proof. destruct HV as (H1 & H2 & H3 & _). exact (d_not_moment x others d md sz r H1 H3). Qed.
  Lemma start_operands n : S (List.length others) = n -> exists others' tx ts, xprepare_values n axis dim x others = Ok (d, others') /\
    labelled_of others' = labelled_of others /\ broadcast_compat outer [d] x = Ok tx /\
    mapR (fun a : xop * list sname => match fst a with Labelled z => broadcast_compat outer (snd a) z | Plain t => Ok t end) (map (fun o => (o, [d])) others') = Ok ts /\
    Forall2 (fits_value d outer sz r) ops (tx :: ts).
  Proof.
    intros Hn. pose proof HV as (H2 & H3 & H4 & H5). destruct vg_x as (Hx & _ & Ex).
    destruct (ops_prepared x others d sz r H2) as (others' & tx & ts & E1 & E2 & E3 & E4 & F). fold ops outer in E3, E4, F.
    exists others', tx, ts. split; [|auto]. apply xprepare_eq; [exact HC|exact Hx|exact Hn|now rewrite Ex].
  Qed.
  Lemma read_operand o t e env i : fits_value d outer sz r o t -> (forall k, k < List.length outer -> e k = env (nth k outer "")) -> inside_names sz outer env -> i < sz d ->
    read_value t 0 i (counted_from_end (List.length s) e) = value_at d outer r o env i.
  Proof. intros (_ & c & _ & _ & _ & Q) He Hi Li. rewrite (proj2 vg_len). now apply Q. Qed.
  Lemma read_samples {V} (R : reader V) w y tx tw ty e env : Forall2 (fits_value d outer sz r) (Labelled x :: w :: y) (tx :: tw :: ty) ->
    (forall k, k < List.length outer -> e k = env (nth k outer "")) -> inside_names sz outer env ->
    samples_in R tx tw ty 0 s e = samples_named R d outer r (sz d) (Labelled x) w y env.
  Proof.
    intros F He Hi. pose proof (ops_agree_of x others d sz r (w :: y) tx (tw :: ty) F) as [_ G2]. inversion F as [|o t l l' Fx Fo]; subst. inversion Fo as [|o t l l' Fw Fy]; subst.
    unfold samples_in, samples_at, samples_named. rewrite G2. apply map_ext_in. intros i Hk. apply in_seq in Hk. f_equal; [|apply read_operand; auto; lia].
    f_equal. symmetry. apply (map_Forall2 (fits_value d outer sz r)); [now constructor|]. intros o t H. symmetry. apply read_operand; auto; lia.
  Qed.
  Lemma value_at_ext o env env' i : In o ops -> (forall n, In n outer -> env n = env' n) -> value_at d outer r o env i = value_at d outer r o env' i.
  Proof.
    intros Ho H. pose proof HV as (Hg & _). fold ops outer in Hg. pose proof (operand_incl x others d sz r Hg o Ho) as Io. fold ops outer in Io. specialize (Hg o Ho). destruct o as [z|t]; cbn [value_at].
    - unfold x_at. f_equal. apply map_ext_in. intros n Hn. destruct (string_dec n d) as [->|Q]; [unfold name_bind; cbn; now rewrite String.eqb_refl|].
      rewrite !name_bind_out by (intros [Q'|[]]; congruence). apply H. destruct (in_app_or _ _ _ (Io n Hn)) as [|[Q'|[]]]; [assumption|congruence].
    - destruct (Nat.eqb_spec (tndim t) 0) as [E|E]; [reflexivity|]. destruct Hg as [|(_ & (A1 & A2 & A3 & A4 & A5) & _)]; [tauto|]. apply aligned_entry_ext; [|exact A2|reflexivity|exact A4].
      intros k Hk. apply in_seq in Hk. apply H, nth_In. exact (proj2 Hk).
  Qed.
  Lemma samples_named_ext {V} (R : reader V) w y n env env' : incl (w :: y) others -> (forall n, In n outer -> env n = env' n) ->
    samples_named R d outer r n (Labelled x) w y env = samples_named R d outer r n (Labelled x) w y env'.
  Proof.
    intros I H. unfold samples_named. apply map_ext. intros i. f_equal; [f_equal; apply map_ext_in; intros o Ho|]; apply value_at_ext; auto; [|right; apply I; now left].
    destruct Ho as [<-|Ho]; [now left|right; apply I; now right].
  Qed.
End Start.
Lemma start_values {A} (P : packer A) axis dim d md sz x w y : chooses 0 axis dim d x -> values_given P d md sz x w y ->
  let outer := other_names d (Labelled x :: w :: y) in let s := map sz (outer ++ [d]) in
  exists others' tx tw ty, xprepare_values (S (mom_ndim P)) axis dim x (w :: y) = Ok (d, others') /\
    labelled_of others' = labelled_of (w :: y) /\ broadcast_compat outer [d] x = Ok tx /\
    mapR (fun a : xop * list sname => match fst a with Labelled z => broadcast_compat outer (snd a) z | Plain t => Ok t end) (map (fun o => (o, [d])) others') = Ok (tw :: ty) /\
    values_ok P (AInt (-1)) 0 tx tw ty s /\ dim_from_end tx 0 = sz d /\
    forall V (R : reader V) e env, (forall k, k < List.length outer -> e k = env (nth k outer "")) -> inside_names sz outer env ->
      samples_in R tx tw ty 0 s e = samples_named R d outer (from_last d x) (sz d) (Labelled x) w y env.
Proof.
  intros HC [H1 HV] outer s. destruct (start_operands P axis dim d md sz x (w :: y) HC HV (S (mom_ndim P))) as (others' & tx & ts & E1 & E2 & E3 & E4 & F); [cbn; unfold mom_ndim; now rewrite H1|].
  pose proof HV as (H2 & _). destruct (ops_agree x (w :: y) d sz (from_last d x) tx ts F) as [G1 G2]. pose proof (ops_shape x (w :: y) d sz (from_last d x) H2 tx ts F) as G3.
  inversion F as [|o t l l' Fx Fo]; subst. inversion Fo as [|o t l l' Fw Fy]; subst. rename t into tw. rename l' into ty.
  exists others', tx, tw, ty. repeat (split; [assumption|]). split; [|split; [exact G2|]].
  - assert (Ly : List.length ty = List.length y). { clear - Fy. induction Fy; cbn; congruence. } split; [rewrite Ly; exact H1|]. split; [exact G1|exact G3].
  - intros V R e env. apply (read_samples d sz x (w :: y)). exact F.
Qed.
Lemma params_dims md : iter_dims (params_for md) = Ok md.
Proof. reflexivity. Qed.
Lemma params_core md l : core_dims (params_for md) l = Ok (l ++ md)%list.
Proof. reflexivity. Qed.

Theorem reduce_vals_named : forall {A V} (K : pusher A V) ok P R, values_array K ok P R ->
  forall axis dim d md sz x w y, chooses 0 axis dim d x -> values_given P d md sz x w y ->
  values_reduced K P R d md sz x w y (x_reduce_vals K P R (params_for md) axis dim x w y).
Proof.
  intros A V K ok P R HA axis dim d md sz x w y HC HV. destruct (start_values P axis dim d md sz x w y HC HV) as (others' & tx & tw & ty & E1 & E2 & E3 & E4 & G1 & G2 & G3).
  destruct (vg_len d sz x (w :: y)) as [L1 L2]. unfold x_reduce_vals. rewrite E1. cbn [rbind]. rewrite params_dims. cbn [rbind].
  set (ops := Labelled x :: w :: y) in *. set (outer := other_names d ops) in *. set (s := map sz (outer ++ [d])) in *.
  pose proof HV as (_ & Hg & Nmd & Hmd & Pm). cbv zeta in Hg, Hmd. fold ops outer in Hg, Hmd.
  pose proof (reduce_vals_array K ok P R HA (AInt (-1)) 0 tx tw ty s G1) as J. cbv zeta in J. rewrite L1, L2 in J.
  assert (Le : except_nat (seq 0 (S (List.length outer))) [List.length outer] = seq 0 (List.length outer)) by (rewrite <- Nat.add_1_r; apply (except_seq (List.length outer) 0)). rewrite Le in J.
  set (a := List.length outer) in *. set (m := List.length (pk_shape P)) in *. assert (Lm : m = List.length md) by (unfold m; rewrite <- Pm; apply map_length).
  assert (Sh : forall k, k < a -> shape_of (frame s (pk_shape P)) k = sz (nth k outer "")).
  { intros k Hk. unfold shape_of, frame, s. cbn [tshape tabulate]. rewrite map_app, <- app_assoc, app_nth1 by (now rewrite map_length). now apply nth_map_dims. }
  assert (Shm : forall k, k < m -> shape_of (frame s (pk_shape P)) (S a + k) = sz (nth k md "")).
  { intros k Hk. unfold shape_of, frame. cbn [tshape tabulate]. rewrite app_nth2 by lia. rewrite L2. replace (S a + k - S a) with k by lia. rewrite <- Pm. apply nth_map_dims. lia. }
  assert (MapL : forall T (f : nat -> T) (g : sname -> T), (forall k, k < a -> f k = g (nth k outer "")) -> (forall k, k < m -> f (S a + k) = g (nth k md "")) -> map f (seq 0 a ++ seq (S a) m) = map g (outer ++ md)).
  { intros T f g Q1 Q2. rewrite !map_app. f_equal; [rewrite (map_named g outer)|rewrite map_seq_shift, (map_named g md), <- Lm]; apply map_ext_in; intros k Hk; apply in_seq in Hk; [apply Q1|apply Q2]; lia. }
  set (ufun := call_values (fun x w y => rmap to_grid (reduce_vals_nd K P R (AInt (-1)) x w y))).
  assert (Ef : ufun (tx :: (tw :: ty) ++ []) = rmap to_grid (reduce_vals_nd K P R (AInt (-1)) tx tw ty)) by (rewrite app_nil_r; reflexivity).
  rewrite <- (app_nil_r (values_args d x others')).
  assert (EO : outer_dims [] (flat_map snd (values_args d x others' ++ []) ++ md) (labelled_of (map fst (values_args d x others' ++ []))) = outer).
  { apply (args_outer x (w :: y) d others' E2 []).
    - intros n Q Q'. elim (Hmd n Q Q').
    - intros n [].
    - intros z n []. }
  pose proof (args_tensors x (w :: y) d others' tx (tw :: ty) E3 E4 [] [] eq_refl) as ET.
  pose proof (args_agree x (w :: y) d sz (from_last d x) Hg others' E2 [] sz (fun _ _ => eq_refl) ltac:(intros z n [])) as EA.
  rewrite (apply_ufunc_eq _ md [] ufun sz (tx :: (tw :: ty) ++ [])%list); cbv zeta; rewrite ?EO; [|exact EA|exact ET|].
  - rewrite Ef. destruct (reduce_vals_nd K P R (AInt (-1)) tx tw ty) as [out|e]; cbn [rmap rbind values_reduced].
    + destruct J as (J1 & J2 & J3). cbn [lg_dims lg_val to_grid gshape]. fold ops outer. split; [reflexivity|]. split; [exact J1|]. split; [rewrite J2; apply MapL; assumption|].
      intros env Hi. set (e := fun k => if k <? a then env (nth k outer "") else env (nth (k - S a) md "")).
      assert (e1 : forall k, k < a -> e k = env (nth k outer "")) by (intros k Hk; unfold e; destruct (Nat.ltb_spec k a); [reflexivity|lia]).
      assert (e2 : forall k, k < m -> e (S a + k) = env (nth k md "")) by (intros k Hk; unfold e; destruct (Nat.ltb_spec (S a + k) a); [lia|]; do 2 f_equal; lia).
      destruct (J3 e) as (o & O1 & O2).
      { intros k Hk. apply in_app_or in Hk. destruct Hk as [Hk|Hk]; apply in_seq in Hk.
        - rewrite e1, Sh by lia. apply Hi, in_or_app. left. apply nth_In. exact (proj2 Hk).
        - replace k with (S a + (k - S a)) by lia. rewrite e2, Shm by lia. apply Hi, in_or_app. right. apply nth_In. lia. }
      exists o. split; [rewrite <- O1; f_equal; symmetry; apply G3; [exact e1|]; intros n Hn; apply Hi, in_or_app; now left|].
      unfold l_at. cbn [lg_val lg_dims]. rewrite (MapL _ e env e1 e2) in O2. unfold gget. cbn [to_grid gdata gshape]. etransitivity; [exact O2|]. f_equal. rewrite map_seq_shift, (map_named env md), <- Lm. apply map_ext_in. intros k Hk. apply in_seq in Hk. apply e2. lia.
    + destruct J as (J1 & e' & J2 & J3). fold ops outer. split; [exact J1|].
      exists (fun n => e' (position String.eqb n outer)). split.
      * intros n Hn. destruct (pos_lt _ _ Hn) as [P1 P2]. rewrite <- P2 at 2. rewrite <- Sh by exact P1. apply J2, in_seq. unfold a. lia.
      * rewrite <- J3. f_equal. symmetry. apply G3.
        -- intros k Hk. f_equal. symmetry. apply position_nth; [|now apply nth_error_nth']. pose proof (outer_NoDup x (w :: y) d) as N. apply NoDup_app_iff in N. apply N.
        -- intros n Hn. destruct (pos_lt _ _ Hn) as [P1 P2]. rewrite <- P2 at 2. rewrite <- Sh by exact P1. apply J2, in_seq. unfold a. lia.
  - intros g. rewrite Ef. destruct (reduce_vals_nd K P R (AInt (-1)) tx tw ty) as [out|e]; [|discriminate]. cbn [rmap rbind]. intros [= <-]. destruct J as (_ & J2 & _). cbn [to_grid gshape]. rewrite J2, (MapL _ _ sz Sh Shm), map_length.
    split; [reflexivity|]. intros n k Hk _ _. rewrite combine_map_r in Hk. apply in_map_iff in Hk. destruct Hk as (n' & Q & _). now inversion Q.
Qed.

Lemma of_opt_ok {X} e (o : option X) r : of_opt e o = Ok r -> o = Some r.
Proof. destruct o; cbn; congruence. Qed.
Lemma result_size_same (sz : sname -> nat) d n : result_size sz d (sz d) n = sz n.
Proof. unfold result_size. destruct (String.eqb_spec n d) as [->|]; reflexivity. Qed.

Theorem rolling_vals_named : forall {A V} (K : pusher A V) ok P R, values_array K ok P R ->
  forall window min_periods (center : bool) zero axis dim d md sz to_end x w y, chooses 0 axis dim d x -> values_given P d md sz x w y -> (0 <= window)%Z ->
  let ops := Labelled x :: w :: y in
  let samples := samples_named R d (other_names d ops) (from_last d x) (sz d) (Labelled x) w y in
  let r := x_rolling_vals K P R (params_for md) window min_periods center zero axis dim to_end x w y in
  (center = false \/ (0 < window)%Z ->
   by_name None (row_entry P zero)
    (fun env => if center then rolling_vals_center K (rd_val R []) window min_periods (samples env)
                else of_opt EZeroDiv (rolling_vals K (rd_val R [], 0%Qc) (Z.to_nat window) (match min_periods with None => window | Some k => k end) (samples env)))
    (values_dims to_end d d md x ops) sz d md r) /\
  (center = true -> window = 0%Z -> r = Raise EValue).
Proof.
  intros A V K ok P R HA window mp center zero axis dim d md sz to_end x w y HC HV Hw ops samples r.
  destruct (start_values P axis dim d md sz x w y HC HV) as (others' & tx & tw & ty & E1 & E2 & E3 & E4 & G1 & G2 & G3).
  destruct (vg_len d sz x (w :: y)) as [L1 L2]. unfold r, x_rolling_vals. rewrite E1. cbn [rbind]. rewrite params_core, params_dims. cbn [rbind app].
  fold ops in E3, E4, G1, G3, L1, L2. set (outer := other_names d ops) in *. set (s := map sz (outer ++ [d])) in *.
  pose proof (proj2 HV) as HO. pose proof HO as (Hg & Nmd & Hmd & Pm). cbv zeta in Hg, Hmd. pose proof (vg_d P d md sz x (w :: y) HO) as Nd.
  destruct (vg_x P d md sz x (w :: y) HO) as (Hx & Hd & _).
  destruct (rolling_vals_array K ok P R HA window mp center zero (AInt (-1)) false 0 tx tw ty s G1 Hw) as [J1 J2].
  destruct (@values_alone A (option A) (option Qc) P x (w :: y) d md sz (from_last d x) others' tx (tw :: ty) Hg Nmd Hmd Pm E2 E3 E4) as [Q1 Q2]. split.
  - intros Hc. apply (values_kept x (w :: y) d md Hx Hd Nmd Hmd). specialize (J1 Hc). unfold by_values in J1. rewrite L1, L2, G2 in J1.
    eapply Q1; [exact J1|]. intros e env He Hi. cbv beta. rewrite (G3 V R e env He Hi). reflexivity.
  - intros Hc Hz. rewrite (Q2 _ EValue); [reflexivity|]. cbn [call_values]. now apply J2.
Qed.

Theorem resample_vals_named : forall {A V} (K : pusher A V) ok P R, values_array K ok P R ->
  forall freq rep nrep ndat axis dim d md sz to_end x w y, chooses 0 axis dim d x -> values_given P d md sz x w y -> counts_named freq rep d nrep ndat -> ~ In rep md ->
  let ops := Labelled x :: w :: y in
  let r := x_resample_vals K P R (params_for md) freq rep axis dim to_end x w y in
  (ndat = sz d -> ~ In rep (all_names ops) \/ rep = d /\ nrep = ndat ->
   by_name 0%Qc (pk_unpack P)
    (fun env => of_opt EZeroDiv (resample_vals K (counts_table freq rep d nrep ndat) (samples_named R d (other_names d ops) (from_last d x) (sz d) (Labelled x) w y env)))
    (values_dims to_end d rep md x ops) (result_size sz rep nrep) rep md r) /\
  (ndat <> sz d -> ~ In rep (all_names ops) \/ rep = d -> r = Raise EValue).
Proof.
  intros A V K ok P R HA freq rep nrep ndat axis dim d md sz to_end x w y HC HV HF Nr ops r.
  destruct (start_values P axis dim d md sz x w y HC HV) as (others' & tx & tw & ty & E1 & E2 & E3 & E4 & G1 & G2 & G3).
  destruct (vg_len d sz x (w :: y)) as [L1 L2]. unfold r, x_resample_vals. rewrite E1. cbn [rbind]. rewrite params_core, params_dims. cbn [rbind app].
  fold ops in E3, E4, G1, G3, L1, L2. set (outer := other_names d ops) in *. set (s := map sz (outer ++ [d])) in *.
  pose proof (proj2 HV) as HO. pose proof HO as (Hg & Nmd & Hmd & Pm). cbv zeta in Hg, Hmd. pose proof (vg_d P d md sz x (w :: y) HO) as Nd.
  destruct (vg_x P d md sz x (w :: y) HO) as (Hx & Hd & _).
  assert (Arr : rep = d \/ ~ In rep (all_names ops) -> exists t, match freq with Labelled z => broadcast_compat outer [rep; d] z | Plain t => Ok t end = Ok t /\
    tensor_ok t /\ tndim t = 2 /\ shape_of t 0 = nrep /\ shape_of t 1 = ndat /\ table t = counts_table freq rep d nrep ndat).
  { intros Hr. apply counts_array; [exact HF| |apply NoDup_filter, NoDup_rev, NoDup_nodup]. intros n Hn. apply outer_names_In in Hn. destruct Hn as [H1 H2]. split; [|exact H2]. intros ->. destruct Hr as [->|Hr]; tauto. }
  split.
  - intros Hn Hr0. assert (Hr : rep = d \/ ~ In rep (all_names ops)) by tauto. destruct (Arr Hr) as (tf & Ef & F1 & F2 & F3 & F4 & F5).
    apply (values_finish x (w :: y) d md Hx Hd Nmd Hmd); [exact Hr|exact Nr|].
    destruct (resample_vals_array K ok P R HA tf (AInt (-1)) false 0 tx tw ty s G1 F1 F2) as [J1 _]. rewrite F4, G2, F3, F5 in J1. specialize (J1 Hn). unfold by_values_t, by_values in J1. rewrite L1, L2 in J1.
    assert (Etm : mapR (fun a : xop * list sname => match fst a with Labelled z => broadcast_compat outer (snd a) z | Plain t => Ok t end) [(freq, [rep; d])] = Ok [tf]) by (cbn [mapR fst snd]; rewrite Ef; reflexivity).
    refine (values_apply P x (w :: y) d md sz (from_last d x) Hg Nmd Hmd Pm others' tx (tw :: ty) E2 E3 E4 [(freq, [rep; d])] [tf] Etm 0%Qc (pk_unpack P) rep nrep
      (fun e => of_opt EZeroDiv (resample_vals K (counts_table freq rep d nrep ndat) (samples_in R tx tw ty 0 s e))) _ _ Hr Nr _ _ _ _ _).
    + intros Q. destruct Hr0 as [Hr0|[_ Hr0]]; [|congruence]. subst rep. elim Hr0. apply (x_names x (w :: y)). exact Hd.
    + intros z n Hz. destruct freq as [z'|t]; [|destruct Hz]. destruct Hz as [<-|[]]. destruct HF as (Z1 & Z2 & Z3 & Z4 & Z5). split; [exact Z1|]. intros Hn'. apply Z3 in Hn'. split.
      * destruct Hn' as [->| ->]; [left; now left|right; apply (x_names x (w :: y)); exact Hd].
      * unfold result_size. destruct Hn' as [->| ->]; [rewrite String.eqb_refl; exact Z4|]. destruct (String.eqb_spec d rep); congruence.
    + intros n [<-|[<-|[]]]; [right; now left|now left].
    + replace (last (tx :: (tw :: ty) ++ [tf]) (Tensor [0] [])) with tf by (change (tx :: (tw :: ty) ++ [tf]) with ((tx :: tw :: ty) ++ [tf])%list; symmetry; apply last_last).
      replace (removelast (tx :: (tw :: ty) ++ [tf])) with (tx :: tw :: ty) by (change (tx :: (tw :: ty) ++ [tf]) with ((tx :: tw :: ty) ++ [tf])%list; symmetry; apply removelast_last).
      cbn [call_values]. exact J1.
    + intros e env He Hi. rewrite (G3 V R e env He Hi). reflexivity.
  - intros Hn Hr0. assert (Hr : rep = d \/ ~ In rep (all_names ops)) by tauto. destruct (Arr Hr) as (tf & Ef & F1 & F2 & F3 & F4 & F5).
    destruct freq as [z|tp].
    + destruct HF as (Z1 & Z2 & Z3 & Z4 & Z5).
      rewrite (apply_ufunc_conflict _ _ [] _ x z d); [reflexivity| | |exact Hx|exact Z1|exact Hd|apply Z3; now right|intros []|].
      * apply labelled_of_In. rewrite map_app. apply in_or_app. left. now left.
      * apply labelled_of_In. rewrite map_app. apply in_or_app. right. now left.
      * destruct (vg_x P d md sz x (w :: y) HO) as (_ & _ & Ex). congruence.
    + destruct (resample_vals_array K ok P R HA tf (AInt (-1)) false 0 tx tw ty s G1 F1 F2) as [_ J2]. rewrite F4, G2 in J2.
      assert (Etm : mapR (fun a : xop * list sname => match fst a with Labelled z => broadcast_compat outer (snd a) z | Plain t => Ok t end) [(Plain tp, [rep; d])] = Ok [tf]) by (cbn [mapR fst snd]; rewrite Ef; reflexivity).
      rewrite (values_raise x (w :: y) d md sz (from_last d x) Hg Hmd others' tx (tw :: ty) E2 E3 E4 [(Plain tp, [rep; d])] [tf] Etm rep (sz rep) _ EValue); [reflexivity|exact Hr|congruence|intros z n []| |].
      * intros n [<-|[<-|[]]]; [right; now left|now left].
      * replace (last (tx :: (tw :: ty) ++ [tf]) (Tensor [0] [])) with tf by (change (tx :: (tw :: ty) ++ [tf]) with ((tx :: tw :: ty) ++ [tf])%list; symmetry; apply last_last).
        replace (removelast (tx :: (tw :: ty) ++ [tf])) with (tx :: tw :: ty) by (change (tx :: (tw :: ty) ++ [tf]) with ((tx :: tw :: ty) ++ [tf])%list; symmetry; apply removelast_last).
        cbn [call_values]. rewrite (J2 Hn). reflexivity.
Qed.

Lemma given_at_ext {A} (P : packer A) (HP : packer_ok P) md outer sz red env env' : moments_given P md outer sz red -> NoDup md -> List.length md = List.length (pk_shape P) ->
  (forall n, In n outer -> env n = env' n) -> given_at P md outer red env = given_at P md outer red env'.
Proof.
  intros HR Nm Lp H. destruct red as [z|t]; cbn [given_at].
  - destruct HR as (Hz & I2 & I1 & S). unfold moments_named. apply (proj1 HP). intros m Hm. unfold x_at. f_equal. apply map_ext_in. intros n Hn.
    pose proof (valid_length _ _ Hm) as Lm. rewrite <- Lp in Lm. destruct (in_dec string_dec n md) as [Q|Q].
    + destruct (pos_lt md n Q) as [P1 P2]. rewrite <- P2. rewrite !name_bind_in; auto.
    + rewrite !name_bind_out by exact Q. apply H. destruct (in_app_or _ _ _ (I1 n Hn)); tauto.
  - destruct HR as (H1 & (A1 & A2 & A3 & A4 & A5) & H3). apply (proj1 HP). intros c Hc. apply aligned_entry_ext; [|exact A2| |exact A4].
    + intros k Hk. apply in_seq in Hk. apply H. apply nth_In. exact (proj2 Hk).
    + apply valid_length in Hc. rewrite <- H3, map_length in Hc. exact Hc.
Qed.

Theorem jackknife_vals_given_named : forall {A V} (K : pusher A V) ok P R, values_array K ok P R ->
  forall red rep_dim axis dim d md sz to_end x w y, chooses 0 axis dim d x -> values_given P d md sz x w y ->
  let ops := Labelled x :: w :: y in let outer := other_names d ops in let rd := renamed d rep_dim in
  moments_given P md outer sz red ->
  let r := x_jackknife_vals K P R (params_for md) (Some red) rep_dim axis dim to_end x w y in
  (name_free d rep_dim (all_names ops ++ md) ->
   by_name 0%Qc (pk_unpack P)
    (fun env => of_opt EZeroDiv (jackknife_vals_from K (given_at P md outer red env) (samples_named R d outer (from_last d x) (sz d) (Labelled x) w y env)))
    (values_dims to_end d rd md x ops) (result_size sz rd (sz d)) rd md r) /\
  (~ name_free d rep_dim (all_names ops ++ md) -> exists e, r = Raise e).
Proof.
  intros A V K ok P R HA red rep_dim axis dim d md sz to_end x w y HC HV ops outer rd HR r. pose proof (va_array _ _ _ _ HA) as HMA. pose proof (ma_packer _ _ _ HMA) as HP.
  destruct (start_values P axis dim d md sz x w y HC HV) as (others' & tx & tw & ty & E1 & E2 & E3 & E4 & G1 & G2 & G3).
  destruct (vg_len d sz x (w :: y)) as [L1 L2]. unfold r, x_jackknife_vals. cbn [rbind]. rewrite E1. cbn [rbind]. rewrite params_core, params_dims. cbn [rbind app].
  fold ops outer in E3, E4, G1, G3, L1, L2. set (s := map sz (outer ++ [d])) in *.
  pose proof (proj2 HV) as HO. pose proof HO as (Hg & Nmd & Hmd & Pm). cbv zeta in Hg, Hmd. pose proof (vg_d P d md sz x (w :: y) HO) as Nd.
  destruct (vg_x P d md sz x (w :: y) HO) as (Hx & Hd & _).
  pose proof (vg_NoDup P d md sz x (w :: y) HO) as NN. fold ops outer in NN.
  assert (Nom : NoDup (outer ++ md)).
  { apply NoDup_app_iff in NN. destruct NN as (N1 & N2 & N3). inversion N2; subst. apply NoDup_app_iff. split; [exact N1|]. split; [assumption|]. intros n Hn Q. apply (N3 n Hn). now right. }
  assert (Lm : List.length md = List.length (pk_shape P)) by (rewrite <- Pm; now rewrite map_length).
  destruct (given_array P HP md outer sz red HR Nom Pm) as (tr & Er & R1 & R2 & R3 & R4). cbv zeta in R1, R2, R3, R4. rewrite Lm in R1, R2, R3, R4.
  set (run := fun env => of_opt EZeroDiv (jackknife_vals_from K (given_at P md outer red env) (samples_named R d outer (from_last d x) (sz d) (Labelled x) w y env))).
  match goal with |- context [rbind (apply_ufunc ?args ?oc [] ?f) _] => set (r0 := apply_ufunc args oc [] f) end.
  assert (C : by_name 0%Qc (pk_unpack P) run (outer ++ d :: md) (result_size sz d (sz d)) d md r0).
  { pose proof (jackknife_vals_given_array K ok P R HA tr (AInt (-1)) false 0 tx tw ty s G1) as J. cbv zeta in J.
    assert (Le : except_nat (seq 0 (List.length s)) [List.length s - 1 - 0] = seq 0 (List.length outer)) by (rewrite L1, L2, <- Nat.add_1_r; apply (except_seq (List.length outer) 0)). rewrite Le in J.
    specialize (J R1 R3). unfold by_values_t, by_values in J. rewrite L1, L2, G2 in J.
    assert (Etm : mapR (fun a : xop * list sname => match fst a with Labelled z => broadcast_compat outer (snd a) z | Plain t => Ok t end) [(red, md)] = Ok [tr]) by (cbn [mapR fst snd]; rewrite Er; reflexivity).
    refine (values_apply P x (w :: y) d md sz (from_last d x) Hg Nmd Hmd Pm others' tx (tw :: ty) E2 E3 E4 [(red, md)] [tr] Etm 0%Qc (pk_unpack P) d (sz d)
      (fun e => of_opt EZeroDiv (jackknife_vals_from K (pk_pack P (aligned_entry tr (seq (tndim tr - List.length (pk_shape P)) (List.length (pk_shape P))) (seq 0 (List.length outer)) e)) (samples_in R tx tw ty 0 s e))) _ _ (or_introl eq_refl) Nd (fun _ => eq_refl) _ _ _ _).
    - intros z n Hz. destruct red as [z'|t]; [|destruct Hz]. destruct Hz as [<-|[]]. destruct HR as (Z1 & Z2 & Z3 & Z4). split; [exact Z1|]. intros Hn'. split.
      + destruct (in_app_or _ _ _ (Z3 n Hn')) as [Q|Q]; [right; apply (outer_names_In x (w :: y)) in Q; apply Q|left; now right].
      + rewrite result_size_same. now apply Z4.
    - intros n Hn. cbn in Hn. rewrite app_nil_r in Hn. right. now right.
    - replace (last (tx :: (tw :: ty) ++ [tr]) (Tensor [0] [])) with tr by (change (tx :: (tw :: ty) ++ [tr]) with ((tx :: tw :: ty) ++ [tr])%list; symmetry; apply last_last).
      replace (removelast (tx :: (tw :: ty) ++ [tr])) with (tx :: tw :: ty) by (change (tx :: (tw :: ty) ++ [tr]) with ((tx :: tw :: ty) ++ [tr])%list; symmetry; apply removelast_last).
      cbn [call_values]. apply J. apply R2. intros k Hk. unfold s. rewrite map_app, app_nth1 by (now rewrite map_length). now apply nth_map_dims.
    - intros e env He Hi. rewrite (G3 V R e env He Hi), (R4 e env He Hi). reflexivity. }
  clearbody r0. split.
  - intros Fn. apply (values_renamed x (w :: y) d md Hx Hd Nmd Hmd P 0%Qc (pk_unpack P) run sz (sz d) to_end rep_dim r0 Pm); [| |exact C].
    + intros env env' He. unfold run. f_equal. f_equal; [apply (given_at_ext P HP md outer sz red); auto|]. apply (samples_named_ext P d md sz x (w :: y) HO); [apply incl_refl|exact He].
    + destruct rep_dim as [n|]; [|now left]. cbn [name_free] in Fn. destruct Fn as [Fn|Fn]; [now left|right]. rewrite in_app_iff in Fn. tauto.
  - intros Fn. destruct rep_dim as [n|]; [|elim Fn; exact I]. cbn [name_free] in Fn.
    assert (Q : n <> d /\ (In n (all_names ops) \/ In n md)). { split; [tauto|]. apply in_app_or. destruct (in_dec string_dec n (all_names ops ++ md)); tauto. }
    destruct (values_rename_collides x (w :: y) d md Hx Hd Nmd Hmd 0%Qc (pk_unpack P) run _ to_end n r0 (proj1 Q) (proj2 Q) C) as (e & Ee & _). exists e. exact Ee.
Qed.

Theorem jackknife_vals_named : forall {A V} (K : pusher A V) ok P R, values_array K ok P R ->
  forall rep_dim axis dim d md sz to_end x w y, chooses 0 axis dim d x -> values_given P d md sz x w y ->
  let ops := Labelled x :: w :: y in let rd := renamed d rep_dim in
  let r := x_jackknife_vals K P R (params_for md) None rep_dim axis dim to_end x w y in
  (name_free d rep_dim (all_names ops ++ md) ->
   by_name 0%Qc (pk_unpack P)
    (fun env => of_opt EZeroDiv (jackknife_vals K (samples_named R d (other_names d ops) (from_last d x) (sz d) (Labelled x) w y env)))
    (values_dims to_end d rd md x ops) (result_size sz rd (sz d)) rd md r) /\
  (~ name_free d rep_dim (all_names ops ++ md) -> exists e, r = Raise e).
Proof.
  intros A V K ok P R HA rep_dim axis dim d md sz to_end x w y HC HV ops rd r. pose proof (va_array _ _ _ _ HA) as HMA. pose proof (ma_packer _ _ _ HMA) as HP.
  pose proof (reduce_vals_named K ok P R HA axis dim d md sz x w y HC HV) as J.
  assert (Er : r = rbind (rmap (fun g => Labelled (to_xarr g)) (x_reduce_vals K P R (params_for md) axis dim x w y))
     (fun red => x_jackknife_vals K P R (params_for md) (Some red) rep_dim axis dim to_end x w y)).
  { unfold r, x_jackknife_vals at 1. destruct (x_reduce_vals _ _ _ _ _ _ _ _); reflexivity. }
  rewrite Er. clearbody r. clear Er. set (outer := other_names d ops).
  pose proof (proj2 HV) as HO. pose proof HO as (Hg & Nmd & Hmd & Pm). cbv zeta in Hg, Hmd. destruct (vg_x P d md sz x (w :: y) HO) as (Hx & Hd & _).
  pose proof (vg_NoDup P d md sz x (w :: y) HO) as NN. fold ops outer in NN.
  assert (Nom : NoDup (outer ++ md)).
  { apply NoDup_app_iff in NN. destruct NN as (N1 & N2 & N3). inversion N2; subst. apply NoDup_app_iff. split; [exact N1|]. split; [assumption|]. intros n Hn Q. apply (N3 n Hn). now right. }
  assert (Lm : List.length md = List.length (pk_shape P)) by (rewrite <- Pm; now rewrite map_length).
  set (samples := samples_named R d outer (from_last d x) (sz d) (Labelled x) w y).
  assert (In1 : forall env, name_free d rep_dim (all_names ops ++ md) -> inside_names (result_size sz rd (sz d)) (except_name (values_dims to_end d rd md x ops) (rd :: md)) env <-> inside_names sz outer env).
  { intros env Fn. assert (X : forall n, In n (except_name (values_dims to_end d rd md x ops) (rd :: md)) <-> In n outer).
    { intros n. pose proof (values_dims_In x (w :: y) d md Hd to_end rd n) as VI. fold ops outer in VI. rewrite except_name_In, VI, in_app_iff. split; [tauto|]. intros Hn. split; [now left|]. intros [Q|Q].
      - apply (outer_names_In x (w :: y)) in Hn. fold ops in Hn. subst n. unfold rd in Hn. destruct rep_dim as [n|]; cbn [renamed name_free] in *; [|tauto]. rewrite in_app_iff in Fn. tauto.
      - apply (outer_names_In x (w :: y)) in Hn. fold ops in Hn. now apply (Hmd n). }
    assert (Y : forall n, In n outer -> result_size sz rd (sz d) n = sz n).
    { intros n Hn. pose proof (proj2 (X n) Hn) as Q. apply except_name_In in Q. unfold result_size. destruct (String.eqb_spec n rd) as [->|]; [destruct Q as [_ Q]; elim Q; now left|reflexivity]. }
    split; intros H n Hn; [rewrite <- Y by exact Hn; now apply H, X|apply X in Hn; rewrite Y by exact Hn; now apply H]. }
  destruct (x_reduce_vals K P R (params_for md) axis dim x w y) as [g|e]; cbn [rmap rbind values_reduced] in *.
  - destruct J as (D1 & D2 & D3 & D4). fold ops outer in D1, D3, D4. destruct (to_xarr_named sz (outer ++ md) g (conj D1 (conj D2 D3)) Nom) as (Z1 & Z2 & Z3).
    assert (HG : moments_given P md outer sz (Labelled (to_xarr g))).
    { split; [exact Z1|]. rewrite Z2. split; [intros n Hn; apply in_or_app; now right|]. split; [apply incl_refl|exact Z3]. }
    destruct (jackknife_vals_given_named K ok P R HA (Labelled (to_xarr g)) rep_dim axis dim d md sz to_end x w y HC HV HG) as [J1 J2]. split; [|exact J2]. intros Fn.
    eapply by_name_ext; [reflexivity| |exact (J1 Fn)]. intros env Hi. cbv beta. fold ops outer. fold (samples env). unfold jackknife_vals. apply In1 in Hi; [|exact Fn].
    assert (EN : forall m, valid (pk_shape P) m -> exists v, reduce_vals K (samples env) = Some v /\ x_at (to_xarr g) (name_bind md m env) = pk_unpack P v m).
    { intros m Hm. pose proof (valid_length _ _ Hm) as Lm'. rewrite <- Lm in Lm'. destruct (D4 (name_bind md m env)) as (v & V1 & V2).
      - intros n Hn. apply in_app_or in Hn. destruct (in_dec string_dec n md) as [Q|Q].
        + destruct (pos_lt md n Q) as [P1 P2]. rewrite <- P2, name_bind_in by assumption. rewrite <- nth_map_dims by exact P1. rewrite Pm. apply valid_nth; [exact Hm|]. rewrite <- Lm. exact P1.
        + rewrite name_bind_out by exact Q. destruct Hn as [Hn|Hn]; [|tauto]. now apply Hi.
      - exists v. split.
        + rewrite <- V1. f_equal. apply (samples_named_ext P d md sz x (w :: y) HO); [apply incl_refl|]. intros n Hn. symmetry. apply name_bind_out. intros Q. apply (outer_names_In x (w :: y)) in Hn. now apply (Hmd n).
        + rewrite x_at_to_xarr, V2. f_equal. now apply map_name_bind. }
    destruct (EN (repeat 0 (List.length (pk_shape P)))) as (v & Ev & _); [apply valid_zeros, HP|]. fold samples. rewrite Ev. cbn [obind]. do 2 f_equal. cbn [given_at]. unfold moments_named.
    rewrite <- (ma_pack_unpack _ _ _ HMA v) by exact (reduce_vals_shape K ok P HMA _ _ Ev).
    apply (proj1 HP). intros m Hm. destruct (EN m Hm) as (v' & Ev' & ->). congruence.
  - destruct J as [-> (env & I & E)]. fold ops outer in I, E. split; [|eauto]. intros Fn. cbn [by_name]. exists env. split; [now apply In1|]. unfold jackknife_vals. fold ops outer. fold (samples env) in E. fold samples. rewrite E. reflexivity.
Qed.
