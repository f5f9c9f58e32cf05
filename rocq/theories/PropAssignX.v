(* Assigned moments of labelled arrays, by name. *)
From Coq Require Import String Permutation.
From Verif Require Import Base BaseLemmas ModelPush ModelKernels ModelIndex ModelAxes ModelState ModelParams ModelNd ModelWrap ModelLabel ModelMoments ModelMomentsX
  Spec SpecAxes SpecNd PropLabelled SpecLabel SpecMethodsX SpecMethods SpecMoments SpecMomentsX
  ProofAxes ProofArrays ProofNd ProofMethods PropParams ProofLabel ProofLabelMany PropLabelJack ProofMethodsX ProofMoments PropConvert PropMoments PropSelect PropAssign PropValsData ProofMomentsX PropMomentsX PropSelectX.
Local Open Scope string_scope.
Local Open Scope nat_scope.

(* ---- arrays that stretch, with axes that do not ------------------------------------------ *)
Lemma from_end_app s q k : from_end (s ++ q) k = if Nat.ltb k (List.length q) then from_end q k else from_end s (k - List.length q).
Proof.
  unfold from_end. rewrite rev_app_distr. destruct (Nat.ltb_spec k (List.length q)).
  - rewrite app_nth1 by (now rewrite rev_length). reflexivity.
  - rewrite app_nth2 by (now rewrite rev_length). now rewrite rev_length.
Qed.
Lemma fits_shape_app sd ls qs : fits_shape sd ls -> fits_shape (sd ++ qs) (ls ++ qs).
Proof.
  intros (L & _ & F). assert (L1 : List.length sd <= List.length ls) by (apply L; now left). split; [|split].
  - intros s [<-|[<-|[]]]; rewrite !app_length; lia.
  - right. exists (ls ++ qs)%list. split; [right; now left|reflexivity].
  - intros k Hk. rewrite app_length in Hk. split; [|right; exists (ls ++ qs)%list; split; [right; now left|reflexivity]].
    intros s [<-|[<-|[]]]; [|now left]. rewrite !from_end_app. destruct (Nat.ltb_spec k (List.length qs)); [now left|]. apply F; [lia|now left].
Qed.
Lemma combine_parts {X Y} (a b : list X) (c d : list Y) : List.length a = List.length c -> combine (a ++ b) (c ++ d) = (combine a c ++ combine b d)%list.
Proof. revert c. induction a as [|x a IH]; intros [|y c]; cbn; try discriminate; [reflexivity|]. intros [= L]. now rewrite IH. Qed.
Lemma stretched_app sd qs p q : List.length sd <= List.length p -> valid qs q -> stretched (sd ++ qs) (p ++ q) = (stretched sd p ++ q)%list.
Proof.
  intros L V. pose proof (valid_length _ _ V) as Lq. rewrite <- (stretched_self qs q V) at 2. unfold stretched. rewrite !app_length.
  replace (List.length p + List.length q - (List.length sd + List.length qs)) with (List.length p - List.length sd) by lia.
  rewrite Lq, Nat.sub_diag. cbn [skipn]. rewrite skipn_app. replace (List.length p - List.length sd - List.length p) with 0 by lia. cbn [skipn].
  rewrite <- map_app. f_equal. rewrite combine_parts; [reflexivity|]. rewrite skipn_length. lia.
Qed.
Lemma over_fits t sd ls qs : tshape t = (sd ++ qs)%list -> fits_shape sd ls -> fits_over (ls ++ qs) t.
Proof. intros E F. pose proof (fits_shape_app sd ls qs F) as F'. rewrite <- E in F'. apply (broadcasts_fits _ _ _ F'). now left. Qed.
Lemma over_value t sd ls qs p q : tshape t = (sd ++ qs)%list -> fits_shape sd ls -> valid ls p -> valid qs q -> value_over t (p ++ q) = tget t (stretched sd p ++ q).
Proof.
  intros E F Vp Vq. pose proof (fits_shape_app sd ls qs F) as F'. rewrite <- E in F'.
  rewrite (value_over_on _ (ls ++ qs)%list _ _ F') by (try (now left); now apply Forall2_app). unfold value_on. rewrite E, stretched_app; [reflexivity| |exact Vq].
  rewrite (valid_length _ _ Vp). apply F. now left.
Qed.

(* ---- assignments one after the other ------------------------------------------------------- *)
Lemma table_find squeeze s name qs at_ : In (name, (qs, at_)) (moment_names squeeze s) ->
  exists n, find (fun e => String.eqb (fst e) name) (moment_names squeeze s) = Some (n, (qs, at_)).
Proof.
  intros H. destruct (find _ _) as [[n [qs' at']]|] eqn:E.
  - apply find_some in E. destruct E as [E1 E2]. cbn in E2. apply String.eqb_eq in E2. subst n. destruct (names_distinct _ _ _ _ _ _ _ H E1) as [-> ->]. eauto.
  - pose proof (find_none _ _ E _ H) as Q. cbn in Q. now rewrite String.eqb_refl in Q.
Qed.
Lemma set_moments_at qs at_ new f q : (forall q', valid qs q' -> at_ q' = at_ q -> q' = q) -> valid qs q -> set_moments qs at_ new f (at_ q) = new q.
Proof.
  intros Inj V. unfold set_moments. destruct (find _ _) as [q'|] eqn:E.
  - apply find_some in E. destruct E as [E1 E2]. apply all_idx_valid in E1. destruct (list_eq_dec _ _ _) as [E3|]; [|discriminate]. f_equal. now apply Inj.
  - apply all_idx_valid in V. pose proof (find_none _ _ E _ V) as Q. cbn beta in Q. destruct (list_eq_dec _ _ _) as [|C]; [discriminate|]. now elim C.
Qed.
Lemma set_moments_off qs at_ new f m : (forall q, valid qs q -> at_ q <> m) -> set_moments qs at_ new f m = f m.
Proof.
  intros N. unfold set_moments. destruct (find _ _) as [q'|] eqn:E; [|reflexivity]. apply find_some in E. destruct E as [E1 E2]. apply all_idx_valid in E1. destruct (list_eq_dec _ _ _) as [E3|]; [|discriminate]. now apply N in E3.
Qed.
Lemma set_names_old squeeze s news : forall f f', (forall m, valid s m -> f m = f' m) -> forall m, valid s m -> set_names squeeze s news f m = set_names squeeze s news f' m.
Proof.
  induction news as [|[name new] news IH]; intros f f' E m V; [now apply E|]. cbn [set_names]. apply IH; [|exact V]. intros m' V'. destruct (find _ _) as [[n [qs at_]]|]; [|now apply E].
  unfold set_moments. destruct (find _ _); [reflexivity|now apply E].
Qed.
(* new values matter at the places of their selections only *)
Lemma set_names_new squeeze s (news news' : list (string * (list nat -> Qc))) : Forall2 (fun a b => fst a = fst b /\ forall qs at_, In (fst a, (qs, at_)) (moment_names squeeze s) -> forall q, valid qs q -> snd a q = snd b q) news news' ->
  forall f m, set_names squeeze s news f m = set_names squeeze s news' f m.
Proof.
  intros F. induction F as [|[name new] [name' new'] news news' [E1 E2] F IH]; intros f m; [reflexivity|]. cbn [fst snd] in *. subst name'. cbn [set_names].
  rewrite IH. assert (X : forall m', match find (fun e => String.eqb (fst e) name) (moment_names squeeze s) with Some (_, (qs, at_)) => set_moments qs at_ new f | None => f end m' = match find (fun e => String.eqb (fst e) name) (moment_names squeeze s) with Some (_, (qs, at_)) => set_moments qs at_ new' f | None => f end m').
  { intros m'. destruct (find _ _) as [[n [qs at_]]|] eqn:Ef; [|reflexivity]. apply find_some in Ef. destruct Ef as [Ef En]. cbn in En. apply String.eqb_eq in En. subst n.
    unfold set_moments. destruct (find _ (all_idx qs)) as [q|] eqn:Eq; [|reflexivity]. apply find_some in Eq. destruct Eq as [Eq _]. apply all_idx_valid in Eq. now apply (E2 qs at_). }
  clear - X. revert X. generalize (match find (fun e => String.eqb (fst e) name) (moment_names squeeze s) with Some (_, (qs, at_)) => set_moments qs at_ new f | None => f end).
  generalize (match find (fun e => String.eqb (fst e) name) (moment_names squeeze s) with Some (_, (qs, at_)) => set_moments qs at_ new' f | None => f end). revert m. induction news' as [|[n2 w2] r IH]; intros m g g' X; [apply X|].
  cbn [set_names]. apply IH. intros m'. destruct (find _ _) as [[n [qs at_]]|]; [|apply X]. unfold set_moments. destruct (find _ _); [reflexivity|apply X].
Qed.

Section AssignList.
  Context (mom_axes : list Z) (M L : list nat).
  Hypothesis HM : List.length M = 1 \/ List.length M = 2.

  (* the value for place q at position p *)
  Definition array_news (names : list (string * tensor)) (p : list nat) : list (string * (list nat -> Qc)) := map (fun nv => (fst nv, fun q => value_over (snd nv) (p ++ q))) names.
  Lemma assign_list squeeze names : forall t, moment_axes mom_axes M L t -> all_positive (map (shape_of t) M) ->
    Forall (fun nv => exists qs at_, In (fst nv, (qs, at_)) (moment_names squeeze (map (shape_of t) M)) /\ all_exist (map (shape_of t) M) qs at_ /\ fits_over (map (shape_of t) L ++ qs) (snd nv)) names ->
    exists out, assign_moment_nd names mom_axes squeeze t = Ok out /\ moment_axes mom_axes M L out /\ tshape out = tshape t /\
      forall p m, valid (map (shape_of t) L) p -> valid (map (shape_of t) M) m -> moment_entry out M L p m = set_names squeeze (map (shape_of t) M) (array_news names p) (moment_entry t M L p) m.
  Proof.
    induction names as [|[name v] names IH]; intros t H AP F.
    - exists t. rewrite (assign_moment_nothing mom_axes M L t H). auto.
    - inversion F as [|? ? (qs & at_ & HN & AE & FV) F']; subst. cbn [fst snd] in *.
      destruct (assign_moment_entries mom_axes M L t H HM name squeeze qs at_ v HN AP AE FV) as (u & Eu & Hu & Su & G1 & G2).
      assert (SH : forall a, shape_of u a = shape_of t a) by (intros a; unfold shape_of; now rewrite Su).
      destruct (IH u Hu) as (out & Eo & Ho & So & G); [now rewrite (map_ext _ _ SH)|now rewrite !(map_ext _ _ SH)|].
      exists out. change ((name, v) :: names) with ([(name, v)] ++ names)%list. rewrite (assign_moment_sequence mom_axes M L t H). rewrite Eu. cbn [rbind]. split; [exact Eo|]. split; [exact Ho|]. split; [congruence|].
      intros p m Vp Vm. rewrite !(map_ext _ _ SH) in G. rewrite G by assumption. cbn [app array_news map set_names fst snd]. destruct (table_find _ _ _ _ _ HN) as (n & ->).
      apply set_names_old; [|exact Vm]. intros m' Vm'. destruct (in_dec (list_eq_dec Nat.eq_dec) m' (map at_ (all_idx qs))) as [I|I].
      + apply in_map_iff in I. destruct I as (q & <- & Hq). apply all_idx_valid in Hq. rewrite G1 by assumption. rewrite set_moments_at; [reflexivity| |exact Hq]. intros q' Vq' E. eapply names_injective; eauto.
      + assert (N : forall q, valid qs q -> at_ q <> m') by (intros q Vq E; apply I; rewrite <- E; apply in_map; now apply all_idx_valid). rewrite G2 by assumption. now rewrite set_moments_off.
  Qed.
End AssignList.

(* ---- C145: assigned moments, by name --------------------------------------------------------- *)
Section AssignX.
  Context (x : xarr) (md : list sname).
  Hypothesis HM : has_moments md x.
  Let outer := except_name (x_dims x) md.
  Let sz := dim_size x.
  Let s := map sz md.

  Lemma value_core_is squeeze given combined name qs at_ z : In (name, (qs, at_)) (moment_names squeeze s) -> names_combined md squeeze x given combined (name, Labelled z) ->
    value_core (params_for md) md squeeze given name (Labelled z) = selection_dims md squeeze combined name.
  Proof.
    intros H NC. destruct HM as (Hx & Nm & Lm & Im). unfold value_core. destruct (string_dec name "all") as [->|Na].
    - destruct md as [|a [|b [|]]]; cbn in Lm; try lia; destruct squeeze; reflexivity.
    - destruct (declared_is md sz Lm squeeze combined name qs at_ H Na) as (D & [(O & Ec & E1 & _)|(O & Ec & _)]); unfold declared in D; rewrite Ec in *.
      + destruct (NC O) as (-> & Ne & _); [eexists; reflexivity|]. destruct combined; [congruence|]. now rewrite E1.
      + rewrite <- D. unfold kept_dims. destruct (prefix _ _); [reflexivity|]. destruct (prefix _ _); [reflexivity|]. now destruct (String.eqb_spec name "all").
  Qed.
  (* the dimensions of a selection *)
  Lemma selected_dims squeeze combined name qs at_ : In (name, (qs, at_)) (moment_names squeeze s) -> let qd := selection_dims md squeeze combined name in
    List.length qd = List.length qs /\ NoDup qd /\ ((own_dim md squeeze name /\ qd = [combined] /\ qs = [List.length md]) \/ (~ own_dim md squeeze name /\ incl qd md /\ qs = map sz qd)).
  Proof.
    intros H qd. destruct HM as (Hx & Nm & Lm & Im). destruct (string_dec name "all") as [->|Na].
    - assert (E : qd = md /\ qs = s). { split; [reflexivity|]. unfold s in H. destruct md as [|a [|b [|]]]; cbn in Lm; try lia; destruct squeeze; cbn [map moment_names] in H; (destruct H as [H|H]; [injection H; auto|]); exfalso; repeat (destruct H as [H|H]; [discriminate H|]); exact H. }
      destruct E as [E ->]. rewrite E. unfold s. rewrite map_length. split; [reflexivity|]. split; [exact Nm|]. right. split; [intros [[Q|[Q|[]]] _]; discriminate Q|]. split; [intros n; auto|reflexivity].
    - destruct (declared_is md sz Lm squeeze combined name qs at_ H Na) as (_ & [(O & _ & E1 & E2)|(O & _ & I & L1 & E2)]); [fold qd in E1|fold qd in I, L1, E2].
      + rewrite E1, E2. split; [reflexivity|]. split; [repeat constructor; intros []|]. left. auto.
      + rewrite E2, map_length. split; [reflexivity|]. split; [destruct qd as [|q [|? ?]]; [constructor|repeat constructor; intros []|cbn in L1; lia]|]. right. auto.
  Qed.
  Lemma combined_free squeeze given combined name qs at_ z : In (name, (qs, at_)) (moment_names squeeze s) -> names_combined md squeeze x given combined (name, Labelled z) ->
    forall n, In n (selection_dims md squeeze combined name) -> ~ In n outer.
  Proof.
    intros H NC n Hn. destruct (selected_dims squeeze combined name qs at_ H) as (_ & _ & [(O & E & _)|(_ & I & _)]).
    - rewrite E in Hn. destruct Hn as [<-|[]]. destruct (NC O) as (_ & _ & C & _); [eexists; reflexivity|exact C].
    - intros C. apply except_name_In in C. now apply C, I.
  Qed.

  (* what the array for a value must do *)
  Definition stands_for (squeeze : bool) (combined : sname) (nv : string * xop) (t : tensor) : Prop :=
    forall qs at_, In (fst nv, (qs, at_)) (moment_names squeeze s) -> fits_over (map sz outer ++ qs) t /\
      forall env q, inside_names sz outer env -> valid qs q -> value_over t (map env outer ++ q) = value_for md squeeze combined outer (fst nv) (snd nv) env q.
  Definition assignable (squeeze : bool) (given : option sname) (combined : sname) (nv : string * xop) : Prop :=
    exists qs at_, In (fst nv, (qs, at_)) (moment_names squeeze s) /\ all_exist s qs at_ /\ value_suits md squeeze combined outer sz (fst nv) qs (snd nv) /\ names_combined md squeeze x given combined nv.
  Let args squeeze given nvs := map (fun nv : string * xop => (snd nv, value_core (params_for md) md squeeze given (fst nv) (snd nv))) nvs.

  Lemma value_tensors squeeze given combined nvs : Forall (assignable squeeze given combined) nvs ->
    exists ts, mapR (fun a : xop * list sname => match fst a with Labelled z => broadcast_compat outer (snd a) z | Plain t => Ok t end) (args squeeze given nvs) = Ok ts /\ Forall2 (stands_for squeeze combined) nvs ts.
  Proof.
    induction nvs as [|[name v] nvs IH]; intros F; [exists []; split; [reflexivity|constructor]|]. inversion F as [|? ? (qs & at_ & HN & AE & FV & NC) F']; subst. cbn [fst snd] in *. destruct (IH F') as (ts & Ets & Fts).
    assert (Q : exists t, match v with Labelled z => broadcast_compat outer (value_core (params_for md) md squeeze given name v) z | Plain t => Ok t end = Ok t /\ stands_for squeeze combined (name, v) t).
    { destruct v as [z|t].
      - rewrite (value_core_is squeeze given combined name qs at_ z HN NC). destruct (selected_dims squeeze combined name qs at_ HN) as (Lq & Nq & _).
        destruct (operand_tensor (selection_dims md squeeze combined name) qs outer sz (Labelled z) FV) as (t & sd & E1 & E2 & E3 & E4).
        + apply NoDup_app_iff. split; [apply NoDup_filter, (proj1 HM)|]. split; [exact Nq|]. intros n Hn Hc. now apply (combined_free squeeze given combined name qs at_ z HN NC n).
        + exact Lq.
        + exists t. split; [exact E1|]. intros qs' at' HN'. cbn [fst snd] in *. destruct (names_distinct _ _ _ _ _ _ _ HN HN') as [<- _]. split; [exact (over_fits t sd _ qs E2 E3)|].
          intros env q He Vq. rewrite (over_value t sd (map sz outer) qs) by (auto; now apply inside_names_valid). now apply E4.
      - exists t. split; [reflexivity|]. intros qs' at' HN'. cbn [fst snd] in *. destruct (names_distinct _ _ _ _ _ _ _ HN HN') as [<- _]. split; [exact FV|reflexivity]. }
    destruct Q as (t & Et & St). exists (t :: ts). split; [|constructor; [exact St|exact Fts]]. cbn [args map mapR fst snd]. rewrite Et. cbn [rbind]. unfold args in Ets. rewrite Ets. reflexivity.
  Qed.

  (* the named moments get the values, one name after the other; everything else stays;
     the moment dimensions come last *)
  Theorem assign_moment_named squeeze given combined nvs : Forall (lt 0) s -> Forall (assignable squeeze given combined) nvs ->
    result_is (outer ++ md) sz
      (fun env => set_names squeeze s (map (fun nv => (fst nv, value_for md squeeze combined outer (fst nv) (snd nv) env)) nvs) (named_moment x md env) (map env md))
      (x_assign_moment (params_for md) nvs squeeze given x).
  Proof.
    intros Pos F. pose proof HM as (Hx & Nm & Lm & Im). destruct (value_tensors squeeze given combined nvs F) as (ts & Ets & Fts). destruct (xm_data x md Hx Nm Im) as (t & E & T1 & T2 & T3). fold outer sz in E, T2, T3.
    unfold x_assign_moment. destruct (moments_params md Lm) as (Ed & Ea). rewrite Ed. cbn [rbind]. rewrite Ea. cbn [rbind]. fold (args squeeze given nvs).
    set (axes := axes_last (List.length md)). set (Mx := seq (List.length outer) (List.length md)). set (Lx := seq 0 (List.length outer)).
    assert (A : moment_axes axes Mx Lx t).
    { pose proof (last_moment_axes (map sz outer) (map sz md) t T1 T2) as A. rewrite !map_length in A. exact A. }
    destruct (last_shapes (map sz outer) (map sz md) t T2) as [S1 S2]. rewrite (map_length sz outer) in S1. rewrite (map_length sz outer), (map_length sz md) in S2. fold Lx in S1. fold Mx in S2. fold s in S2.
    assert (LM : List.length Mx = 1 \/ List.length Mx = 2) by (unfold Mx; now rewrite seq_length).
    assert (FT : Forall (fun nv => exists qs at_, In (fst nv, (qs, at_)) (moment_names squeeze (map (shape_of t) Mx)) /\ all_exist (map (shape_of t) Mx) qs at_ /\ fits_over (map (shape_of t) Lx ++ qs) (snd nv)) (combine (map fst nvs) ts)).
    { rewrite S1, S2. clear - F Fts. revert F. induction Fts as [|nv t0 nvs ts St Fts IH]; intros F; [constructor|]. inversion F as [|? ? (qs & at_ & HN & AE & FV & NC) F']; subst. cbn [map combine]. constructor; [|now apply IH].
      cbn [fst snd]. exists qs, at_. split; [exact HN|]. split; [exact AE|]. now apply (St qs at_). }
    destruct (assign_list axes Mx Lx LM squeeze (combine (map fst nvs) ts) t A) as (out & Eo & Ho & So & G); [now rewrite S2|exact FT|].
    rewrite S1, S2 in G. set (SZ := fun n => if in_dec string_dec n (x_dims x) then sz n else List.length md).
    apply (apply_is x md Hx Nm Im (args squeeze given nvs) SZ ts md t) with (out := out); auto.
    - intros n Hn. unfold SZ. destruct (in_dec _ _ _); tauto.
    - intros z Hz. unfold args in Hz. rewrite map_map in Hz. cbn [fst] in Hz.
      assert (J : exists name, In (name, Labelled z) nvs). { clear - Hz. unfold labelled_of in Hz. apply in_flat_map in Hz. destruct Hz as (o & Ho & Hz). apply in_map_iff in Ho. destruct Ho as ([n v] & E & Hn). cbn in E. subst o. destruct v; [|destruct Hz]. destruct Hz as [->|[]]. now exists n. }
      destruct J as (name & J). pose proof F as F'. rewrite Forall_forall in F'. destruct (F' _ J) as (qs & at_ & HN & AE & FV & NC). cbn [fst snd] in *. destruct FV as (Hz1 & I1 & I2 & Sz & Eq).
      split; [exact Hz1|]. destruct (selected_dims squeeze combined name qs at_ HN) as (Lq & Nq & Cs).
      assert (Vc : value_core (params_for md) md squeeze given name (Labelled z) = selection_dims md squeeze combined name) by (now apply (value_core_is squeeze given combined name qs at_ z)).
      split.
      + intros n Hn. specialize (I2 n Hn). apply in_app_or in I2. destruct I2 as [I2|I2].
        * rewrite (Sz n Hn I2). unfold SZ. destruct (in_dec _ _ _) as [_|C]; [reflexivity|]. elim C. apply except_name_In in I2. apply I2.
        * destruct Cs as [(O & Ed1 & Ed2)|(_ & I & Ed2)].
          -- rewrite Ed1 in I2, Eq. destruct I2 as [<-|[]]. cbn [map] in Eq. rewrite Ed2 in Eq. injection Eq as Eq. rewrite Eq. unfold SZ. destruct (in_dec _ _ _) as [Q|_]; [|reflexivity].
             destruct (NC O) as (_ & _ & C1 & C2); [eexists; reflexivity|]. symmetry. apply C2. destruct (in_dec string_dec combined md) as [Q2|Q2]; [exact Q2|]. elim C1. now apply except_name_In.
          -- rewrite Ed2 in Eq. assert (P1 : dim_size z n = sz n) by (clear - Eq I2; revert Eq I2; generalize (selection_dims md squeeze combined name); intros l; induction l as [|c l IH]; cbn; [tauto|]; intros [= X1 X2] [<-|Hn]; auto).
             rewrite P1. unfold SZ. destruct (in_dec _ _ _) as [_|C]; [reflexivity|]. elim C. now apply Im, I.
      + intros n Hn. specialize (I2 n Hn). apply in_app_or in I2. destruct I2 as [I2|I2]; [left; apply except_name_In in I2; apply I2|right].
        apply in_flat_map. exists (Labelled z, selection_dims md squeeze combined name). split; [|exact I2]. rewrite <- Vc. unfold args. change (Labelled z, value_core (params_for md) md squeeze given name (Labelled z)) with ((fun nv : string * xop => (snd nv, value_core (params_for md) md squeeze given (fst nv) (snd nv))) (name, Labelled z)). now apply in_map.
    - intros n Hn. apply in_flat_map in Hn. destruct Hn as (a & Ha & Hn). unfold args in Ha. apply in_map_iff in Ha. destruct Ha as ([name v] & <- & J). cbn [fst snd] in Hn. rewrite Forall_forall in F. destruct (F _ J) as (qs & at_ & HN & AE & FV & NC). cbn [fst snd] in *.
      destruct v as [z|t']; [|destruct Hn]. rewrite (value_core_is squeeze given combined name qs at_ z HN NC) in Hn. now apply (combined_free squeeze given combined name qs at_ z HN NC).
    - intros n Hn C. apply except_name_In in C. tauto.
    - apply Ho.
    - rewrite So, T2. now rewrite map_app.
    - intros n Hn _. unfold SZ. destruct (in_dec _ _ _) as [_|C]; [reflexivity|]. elim C. now apply Im.
    - intros env He. apply env_split in He. destruct He as [He Vm]. fold s in Vm. pose proof (inside_names_valid _ _ _ He) as Vp. specialize (G _ _ Vp Vm).
      assert (Ent : forall u m, tshape u = tshape t -> valid s m -> moment_entry u Mx Lx (map env outer) m = tget u (map env outer ++ m)).
      { intros u m Eu V. rewrite T2 in Eu. pose proof (last_moment_entry (map sz outer) (map sz md) u (map env outer) m Eu) as Q. rewrite !map_length in Q. apply Q; [reflexivity|]. rewrite (valid_length _ _ V). apply map_length. }
      rewrite Ent in G by assumption. etransitivity; [exact G|].
      rewrite (set_names_old squeeze s _ _ (named_moment x md env)); [|intros m V; rewrite Ent by auto; now apply T3|exact Vm].
      apply set_names_new. clear - Fts He. unfold array_news. induction Fts as [|nv t0 nvs ts St Fts IH]; [constructor|]. cbn [map combine]. constructor; [|exact IH]. cbn [fst snd]. split; [reflexivity|].
      intros qs at_ HN q Vq. now apply (St qs at_).
  Qed.
End AssignX.

Lemma bind_same md (env : sname -> nat) n : NoDup md -> name_bind md (map env md) env n = env n.
Proof. intros N. destruct (in_dec string_dec n md) as [I|I]; [now apply name_bind_map|now apply name_bind_out]. Qed.
Lemma moment_here (x : xarr) md env : NoDup md -> named_moment x md env (map env md) = x_at x env.
Proof. intros N. unfold named_moment, x_at. f_equal. apply map_ext. intros n. now apply bind_same. Qed.

Section AssignOne.
  Context (x : xarr) (md : list sname).
  Hypothesis HM : has_moments md x.
  Let outer := except_name (x_dims x) md.
  Let sz := dim_size x.
  Let s := map sz md.

  (* one name: its moments get the value, the others stay *)
  Theorem assign_one_named squeeze given combined name v qs at_ : Forall (lt 0) s -> In (name, (qs, at_)) (moment_names squeeze s) -> all_exist s qs at_ ->
    value_suits md squeeze combined outer sz name qs v -> names_combined md squeeze x given combined (name, v) ->
    exists y, x_assign_moment (params_for md) [(name, v)] squeeze given x = Ok y /\ has_moments md y /\ x_dims y = (outer ++ md)%list /\ (forall n, In n (x_dims x) -> dim_size y n = sz n) /\
      (forall env q, inside_names sz outer env -> valid qs q -> named_moment y md env (at_ q) = value_for md squeeze combined outer name v env q) /\
      (forall env m, inside_names sz outer env -> valid s m -> (forall q, valid qs q -> at_ q <> m) -> named_moment y md env m = named_moment x md env m).
  Proof.
    intros Pos HN AE FV NC. pose proof HM as (Hx & Nm & Lm & Im). destruct (assign_moment_named x md HM squeeze given combined [(name, v)] Pos) as (y & Ey & Hy & Dy & Sy & Ay); [constructor; [exists qs, at_; auto|constructor]|].
    fold outer sz s in Dy, Sy, Ay. exists y. split; [exact Ey|]. assert (Iy : forall n, In n (x_dims x) <-> In n (outer ++ md)) by (intros n; symmetry; now apply xm_In).
    split; [split; [exact Hy|]; split; [exact Nm|]; split; [exact Lm|]; rewrite Dy; intros n Hn; apply in_or_app; now right|]. split; [exact Dy|]. split; [intros n Hn; apply Sy; now apply Iy|].
    assert (At : forall env m, inside_names sz outer env -> valid s m -> named_moment y md env m = set_names squeeze s [(name, value_for md squeeze combined outer name v env)] (named_moment x md env) m).
    { intros env m He Vm. assert (Lmm : List.length m = List.length md) by (rewrite (valid_length _ _ Vm); apply map_length). unfold named_moment at 1. rewrite Ay.
      - rewrite map_name_bind by assumption. cbn [map fst snd].
        assert (Eo : map (name_bind md m env) outer = map env outer) by (apply map_ext_in; intros n Hn; apply name_bind_out; apply except_name_In in Hn; tauto).
        rewrite (set_names_old squeeze s _ _ (named_moment x md env)); [|intros m' V'; unfold named_moment, x_at; f_equal; apply map_ext; intros n; destruct (in_dec string_dec n md) as [I|I]; [|now rewrite !name_bind_out by exact I]|exact Vm].
        + apply set_names_new. constructor; [|constructor]. cbn [fst snd]. split; [reflexivity|]. intros qs' at' HN' q Vq. destruct (names_distinct _ _ _ _ _ _ _ HN HN') as [<- _]. unfold value_for. destruct v as [z|t]; [|now rewrite Eo].
          unfold x_at. f_equal. apply map_ext_in. intros n Hn. destruct (in_dec string_dec n (selection_dims md squeeze combined name)) as [I|I].
          * destruct (In_nth _ _ "" I) as (k & Hk & <-). destruct (selected_dims x md HM squeeze combined name qs at_ HN) as (Lq & Nq & _). assert (Lqq : List.length q = List.length (selection_dims md squeeze combined name)) by (rewrite (valid_length _ _ Vq); symmetry; exact Lq). now rewrite !name_bind_in by assumption.
          * rewrite !(name_bind_out (selection_dims md squeeze combined name)) by exact I. apply name_bind_out. destruct FV as (_ & _ & I2 & _). specialize (I2 n Hn). apply in_app_or in I2. destruct I2 as [I2|I2]; [|tauto]. apply except_name_In in I2. tauto.
        + destruct (In_nth _ _ "" I) as (k & Hk & <-). assert (Lm' : List.length m' = List.length md) by (rewrite (valid_length _ _ V'); apply map_length). now rewrite !name_bind_in by assumption.
      - intros n Hn. apply Iy in Hn. now apply (xm_inside x md). }
    split.
    - intros env q He Vq. rewrite At by (try exact He; now apply AE). cbn [set_names]. destruct (table_find _ _ _ _ _ HN) as (n & ->). apply set_moments_at; [|exact Vq]. intros q' Vq' E. eapply names_injective; eauto.
    - intros env m He Vm N. rewrite At by assumption. cbn [set_names]. destruct (table_find _ _ _ _ _ HN) as (n & ->). now apply set_moments_off.
  Qed.

  (* what was selected can be assigned back, given the name of its dimension *)
  Theorem assign_what_was_selected_named squeeze combined coords name qs at_ : Forall (lt 0) s -> In (name, (qs, at_)) (moment_names squeeze s) -> name <> "all" -> all_exist s qs at_ ->
    (own_dim md squeeze name -> coords_fit md coords /\ combined_ok x md combined /\ combined <> "") ->
    exists sel, x_select_moment (params_for md) name squeeze combined coords x = Ok sel /\
      result_is (outer ++ md) sz (x_at x) (x_assign_moment (params_for md) [(name, Labelled sel)] squeeze (Some combined) x).
  Proof.
    intros Pos HN Na AE HC. pose proof HM as (Hx & Nm & Lm & Im). destruct (select_moment_named x md HM name squeeze combined coords qs at_ HN Na Pos AE) as (sel & Es & Hs & Ds & Ss & As); [intros O; split; now apply HC|].
    set (qd := selection_dims md squeeze combined name) in *. fold outer sz in Ds, Ss, As. exists sel. split; [exact Es|]. destruct (selected_dims x md HM squeeze combined name qs at_ HN) as (Lq & Nq & Cs). fold qd in Lq, Nq, Cs.
    assert (NC : names_combined md squeeze x (Some combined) combined (name, Labelled sel)) by (intros O _; destruct (HC O) as (_ & C1 & C2); auto).
    assert (Oq : forall n, In n qd -> ~ In n outer) by (intros n Hn; exact (combined_free x md HM squeeze (Some combined) combined name qs at_ sel HN NC n Hn)).
    assert (Mq : map (dim_size sel) qd = qs). { transitivity (map (sizes_with qd qs sz) qd); [apply map_ext_in; intros n Hn; apply Ss, in_or_app; now right|]. unfold sizes_with. apply map_name_bind; [exact Nq|now symmetry]. }
    assert (So : forall n, In n outer -> dim_size sel n = sz n). { intros n Hn. rewrite Ss by (apply in_or_app; now left). unfold sizes_with. apply name_bind_out. intros C. now apply (Oq n C). }
    destruct (assign_one_named squeeze (Some combined) combined name (Labelled sel) qs at_ Pos HN AE) as (y & Ey & Hy & Dy & Sy & G1 & G2).
    - cbn [value_suits]. fold qd. unfold lines_up. split; [exact Hs|]. rewrite Ds. split; [intros n Hn; apply in_or_app; now right|]. split; [intros n; auto|]. split; [intros n _ Hn; now apply So|exact Mq].
    - exact NC.
    - exists y. split; [exact Ey|]. split; [apply Hy|]. split; [exact Dy|]. split; [intros n Hn; apply Sy; now apply (xm_In x md Hx Nm Im)|].
      intros env He. apply env_split in He. destruct He as [He Vm]. rewrite <- !(moment_here _ md env Nm). set (m := map env md) in *. fold s in Vm.
      destruct (in_dec (list_eq_dec Nat.eq_dec) m (map at_ (all_idx qs))) as [I|I].
      + apply in_map_iff in I. destruct I as (q & <- & Hq). apply all_idx_valid in Hq. rewrite G1 by assumption. cbn [value_for]. fold qd.
        assert (Lqq : List.length q = List.length qd) by (rewrite (valid_length _ _ Hq); now symmetry).
        rewrite As.
        * rewrite (map_name_bind qd q env Nq Lqq). unfold named_moment, x_at. f_equal. apply map_ext_in. intros n Hn. destruct (in_dec string_dec n md) as [J|J].
          -- destruct (In_nth _ _ "" J) as (k & Hk & <-). assert (La : List.length (at_ q) = List.length md) by (rewrite (valid_length _ _ Vm); apply map_length). now rewrite !name_bind_in by assumption.
          -- rewrite !(name_bind_out md) by exact J. apply name_bind_out. intros C. apply (Oq n C). now apply except_name_In.
        * intros n Hn. unfold sizes_with. apply in_app_or in Hn. destruct (in_dec string_dec n qd) as [J|J].
          -- destruct (In_nth _ _ "" J) as (k & Hk & <-). rewrite !name_bind_in by (auto; now symmetry). apply valid_nth; [exact Hq|now rewrite <- Lq].
          -- rewrite !name_bind_out by exact J. destruct Hn as [Hn|Hn]; [now apply He|tauto].
      + apply G2; [exact He|exact Vm|]. intros q Vq E. apply I. rewrite <- E. apply in_map. now apply all_idx_valid.
  Qed.
  (* a name without meaning, a moment that does not exist, an array that does not fit *)
  Theorem assign_moment_named_refused squeeze given name t :
    (~ In name (map fst (moment_names squeeze s)) -> x_assign_moment (params_for md) [(name, Plain t)] squeeze given x = Raise EValue) /\
    (forall qs at_, In (name, (qs, at_)) (moment_names squeeze s) -> ~ all_exist s qs at_ -> x_assign_moment (params_for md) [(name, Plain t)] squeeze given x = Raise EIndex) /\
    (forall qs at_, In (name, (qs, at_)) (moment_names squeeze s) -> Forall (lt 0) s -> all_exist s qs at_ -> ~ fits_over (map sz outer ++ qs) t -> x_assign_moment (params_for md) [(name, Plain t)] squeeze given x = Raise EValue).
  Proof.
    pose proof HM as (Hx & Nm & Lm & Im). destruct (xm_data x md Hx Nm Im) as (u & E & T1 & T2 & _). fold outer sz in E, T2.
    unfold x_assign_moment. destruct (moments_params md Lm) as (Ed & Ea). rewrite Ed. cbn [rbind]. rewrite Ea. cbn [rbind map fst snd value_core].
    set (axes := axes_last (List.length md)). set (Mx := seq (List.length outer) (List.length md)). set (Lx := seq 0 (List.length outer)).
    assert (A : moment_axes axes Mx Lx u).
    { pose proof (last_moment_axes (map sz outer) (map sz md) u T1 T2) as A. rewrite !map_length in A. exact A. }
    destruct (last_shapes (map sz outer) (map sz md) u T2) as [S1 S2]. rewrite (map_length sz outer) in S1. rewrite (map_length sz outer), (map_length sz md) in S2. fold Lx in S1. fold Mx in S2. fold s in S2.
    assert (LM : List.length Mx = 1 \/ List.length Mx = 2) by (unfold Mx; now rewrite seq_length).
    destruct (assign_moment_refused axes Mx Lx u A LM name squeeze t) as (R1 & R2 & R3). rewrite S2, S1 in R1. rewrite S2 in R2, R3.
    assert (K : forall e, assign_moment_nd [(name, t)] axes squeeze u = Raise e ->
      rmap to_xarr (x_apply [(Labelled x, md); (Plain t, [])] md (fun ts => assign_moment_nd (combine [name] (tl ts)) axes squeeze (arg 0 ts))) = Raise e).
    { intros e Ee. rewrite (apply_raises x md Hx [(Plain t, [])] sz [t] md u) with (e := e); auto; [intros z []|intros n Hn C; apply except_name_In in C; tauto]. }
    split; [intros N; apply K; auto|]. split; [intros qs at_ HN NE; apply K; eauto|intros qs at_ HN Pos AE NF; apply K; eauto].
  Qed.
End AssignOne.

(* dim_combined="" is no name *)
Theorem assign_blank_combined : forall p names squeeze x, x_assign_moment p names squeeze (Some "") x = x_assign_moment p names squeeze None x.
Proof.
  intros p names squeeze x. assert (H : forall md name v, value_core p md squeeze (Some "") name v = value_core p md squeeze None name v) by (intros md name v; unfold value_core; now destruct (combines p name squeeze)).
  unfold x_assign_moment. destruct (iter_dims p) as [md|]; [|reflexivity]. cbn [rbind]. destruct (array_axes p) as [mom|]; [|reflexivity]. cbn [rbind].
  rewrite (map_ext (fun nv : string * xop => (snd nv, value_core p md squeeze (Some "") (fst nv) (snd nv))) (fun nv => (snd nv, value_core p md squeeze None (fst nv) (snd nv)))) by (intros nv; now rewrite H). reflexivity.
Qed.
