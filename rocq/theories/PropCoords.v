(* Coordinates of the results of functions of DataArrays (C172). *)
From Coq Require Import String Permutation Sorted.
From Verif Require Import Base BaseLemmas ModelPush ModelKernels ModelIndex ModelAccum ModelAxes ModelState ModelSelect ModelParams ModelNd ModelWrap ModelLabel ModelOut ModelMethods ModelConstruct ModelMethodsX ModelCoords
  Spec SpecAxes SpecNd SpecIndex PropLabelled PropNd SpecLabel SpecLabelTwo PropKernels PropLabelReduce Laws ProofAxes ProofArrays ProofNd PropParams ProofIndex ProofLabels PropIndex ProofLabel ProofLabelMany PropLabel PropLabelTwo SpecCoords.
Local Open Scope string_scope.
Local Open Scope nat_scope.

Section Coordinates.
  Context {T : Type} (dflt : T).
  Variable x : xarr.
  Variable d : sname.

  Lemma index_int_in z n : (0 <= z < Z.of_nat n)%Z -> index_int z n = Ok (Z.to_nat z).
  Proof. intros H. unfold index_int. destruct (Z.ltb_spec z 0); [lia|]. destruct (Z.ltb_spec z 0), (Z.leb_spec (Z.of_nat n) z); cbn; lia || reflexivity. Qed.
  Lemma position_split l : In d l -> NoDup l -> exists p q, l = (p ++ d :: q)%list /\ position String.eqb d l = List.length p /\ ~ In d p /\ ~ In d q.
  Proof.
    intros H N. destruct (in_split _ _ H) as (p & q & ->). pose proof (NoDup_remove_2 _ _ _ N) as Q. exists p, q. split; [reflexivity|]. split; [|split; intros X; apply Q, in_or_app; auto].
    apply PropParams.position_unique; [exact N|]. rewrite nth_error_app2, Nat.sub_diag by lia. reflexivity.
  Qed.
  Lemma map_but (f g : sname -> nat) l : (forall m, m <> d -> f m = g m) -> ~ In d l -> map f l = map g l.
  Proof. intros H N. apply map_ext_in. intros m Hm. apply H. intros ->. contradiction. Qed.

  Lemma valid_map (f g : sname -> nat) l : (forall m, In m l -> f m < g m) -> valid (map g l) (map f l).
  Proof. intros H. induction l as [|m l IH]; cbn [map]; constructor; [apply H; now left|apply IH; intros m' Hm; apply H; now right]. Qed.

  (* one coordinate at the positions rows *)
  Lemma isel_coord_taken rows (c : coord T) : NoDup (co_dims c) -> gshape (co_val c) = map (dim_size x) (co_dims c) -> Forall (fun z => 0 <= z < Z.of_nat (dim_size x d))%Z rows ->
    exists c', isel_coord dflt d rows c = Ok c' /\ co_dims c' = co_dims c /\
      gshape (co_val c') = map (fun m => if String.eqb m d then List.length rows else dim_size x m) (co_dims c) /\
      forall env, (forall m, In m (co_dims c) -> env m < if String.eqb m d then List.length rows else dim_size x m) ->
        co_at dflt c' env = co_at dflt c (fun m => if String.eqb m d then Z.to_nat (nth (env d) rows 0%Z) else env m).
  Proof.
    intros N S F. unfold isel_coord. destruct (smem d (co_dims c)) eqn:E.
    - apply smem_In in E. destruct (position_split _ E N) as (p & q & Ep & -> & Np & Nq). rewrite S, Ep, map_app. cbn [map]. rewrite app_nth2; rewrite map_length; [|lia]. rewrite Nat.sub_diag. cbn [nth].
      rewrite (mapR_ok (fun i => index_int i (dim_size x d)) Z.to_nat) by (intros z Hz; apply index_int_in; rewrite Forall_forall in F; now apply F). cbn [rbind].
      eexists. split; [reflexivity|]. cbn [co_dims co_val gshape gtabulate]. rewrite map_length.
      assert (Em : upd (map (dim_size x) p ++ dim_size x d :: map (dim_size x) q)%list (List.length p) (List.length rows) = map (fun m => if String.eqb m d then List.length rows else dim_size x m) (p ++ d :: q)%list).
      { rewrite <- (map_length (dim_size x) p) at 1. assert (U : forall (u : list nat) a b v, upd (u ++ a :: v) (List.length u) b = (u ++ b :: v)%list) by (clear; induction u as [|h u IH]; intros; cbn; [reflexivity|now rewrite IH]).
        rewrite U, map_app. cbn [map]. rewrite String.eqb_refl. f_equal; [|f_equal]; apply map_but; auto; intros m Hm; now rewrite (proj2 (String.eqb_neq _ _) Hm). }
      rewrite Em. split; [reflexivity|]. split; [reflexivity|]. intros env He. unfold co_at at 1. cbn [co_dims co_val].
      rewrite gget_gtabulate.
      2:{ apply valid_map. exact He. }
      unfold co_at. rewrite Ep, map_app. cbn [map]. rewrite <- (map_length env p) at 1 2.
      assert (U : forall (u : list nat) a b v, upd (u ++ a :: v) (List.length u) b = (u ++ b :: v)%list) by (clear; induction u as [|h u IH]; intros; cbn; [reflexivity|now rewrite IH]).
      rewrite U, map_app. cbn [map]. rewrite String.eqb_refl. rewrite app_nth2, Nat.sub_diag by lia. cbn [nth].
      assert (En : nth (env d) (map Z.to_nat rows) 0 = Z.to_nat (nth (env d) rows 0%Z)) by (change 0 with (Z.to_nat 0%Z) at 1; apply map_nth).
      rewrite En. f_equal. f_equal; [|f_equal]; apply map_but; auto; intros m Hm; now rewrite (proj2 (String.eqb_neq _ _) Hm).
    - apply smem_false in E. exists c. split; [reflexivity|]. split; [reflexivity|]. split.
      + rewrite S. apply map_but; auto. intros m Hm. now rewrite (proj2 (String.eqb_neq _ _) Hm).
      + intros env _. unfold co_at. f_equal. apply map_but; auto. intros m Hm. now rewrite (proj2 (String.eqb_neq _ _) Hm).
  Qed.

  Lemma renames_free (l : list sname) new : new = d \/ ~ In new l -> NoDup l -> NoDup (map (rename_name d new) l).
  Proof.
    intros F N. induction N as [|m l Hm N IH]; cbn [map]; [constructor|]. constructor; [|apply IH; destruct F as [F|F]; [now left|right; intros Q; apply F; now right]].
    intros Q. apply in_map_iff in Q. destruct Q as (m' & E & Hm'). unfold rename_name in E. assert (m <> m') by (intros ->; contradiction).
    destruct (String.eqb_spec m' d) as [D'|D'], (String.eqb_spec m d) as [D|D]; try congruence; destruct F as [F|F]; try congruence; apply F; first [rewrite E; now left|rewrite <- E; now right].
  Qed.
  (* the coordinates at the positions rows, and their new names *)
  Lemma isel_rename_taken rows gd (cs : coords T) : coords_of x cs -> Forall (fun z => 0 <= z < Z.of_nat (dim_size x d))%Z rows -> free_coord cs d (renamed d gd) ->
    exists cs1 cs', replace_coords_from_isel dflt d rows cs = Ok cs1 /\ rename_coords d gd cs1 = Ok cs' /\
      taken dflt x d (renamed d gd) (List.length rows) (fun k => Z.to_nat (nth k rows 0%Z)) cs cs'.
  Proof.
    intros [N W] F Fr.
    assert (E : exists cs1, replace_coords_from_isel dflt d rows cs = Ok cs1 /\ Forall2 (fun c c' => fst c' = fst c /\ co_dims (snd c') = co_dims (snd c) /\
      gshape (co_val (snd c')) = map (fun m => if String.eqb m d then List.length rows else dim_size x m) (co_dims (snd c)) /\
      forall env, (forall m, In m (co_dims (snd c)) -> env m < if String.eqb m d then List.length rows else dim_size x m) ->
        co_at dflt (snd c') env = co_at dflt (snd c) (fun m => if String.eqb m d then Z.to_nat (nth (env d) rows 0%Z) else env m)) cs cs1).
    { clear N Fr. induction cs as [|[n c] cs IH]; [exists []; split; [reflexivity|constructor]|].
      destruct IH as (cs1 & E1 & R1); [intros n' c' H'; apply (W n'); now right|]. destruct (W n c (or_introl eq_refl)) as (N1 & _ & S1 & _).
      destruct (isel_coord_taken rows c N1 S1 F) as (c' & Ec & P1 & P2 & P3). exists ((n, c') :: cs1). unfold replace_coords_from_isel in *. cbn [mapR fst snd]. rewrite Ec. cbn [rmap rbind]. unfold rmap in *. rewrite E1.
      split; [reflexivity|]. constructor; [cbn [fst snd]; auto|exact R1]. }
    destruct E as (cs1 & E1 & R1). exists cs1. destruct gd as [new|]; cbn [rename_coords renamed] in *.
    - set (l := map _ cs1). assert (En : map fst l = map (rename_name d new) (map fst cs)).
      { unfold l. clear - R1. induction R1 as [|c c' cs cs1 H R IH]; [reflexivity|]. cbn [map fst]. f_equal; [now rewrite (proj1 H)|exact IH]. }
      assert (Ed : sdup (map fst l) = false). { rewrite sdup_false, En. now apply renames_free. }
      rewrite Ed. exists l. split; [exact E1|]. split; [reflexivity|]. unfold l. clear - R1.
      induction R1 as [|c c' cs cs1 (H1 & H2 & H3 & H4) R IH]; [constructor|]. cbn [map]. constructor; [|exact IH]. cbn [fst snd co_dims co_val]. rewrite H1, H2. split; [reflexivity|]. split; [reflexivity|]. split; [exact H3|].
      intros env He. unfold co_at at 1. cbn [co_dims co_val]. rewrite map_map.
      specialize (H4 (fun m => env (rename_name d new m))). unfold co_at at 1 in H4. rewrite H2 in H4. rewrite H4; [|exact He]. unfold co_at. f_equal. apply map_ext. intros m. unfold rename_name. rewrite String.eqb_refl.
      destruct (String.eqb m d); reflexivity.
    - exists cs1. split; [exact E1|]. split; [reflexivity|]. clear - R1.
      induction R1 as [|c c' cs cs1 (H1 & H2 & H3 & H4) R IH]; [constructor|]. constructor; [|exact IH].
      assert (Id : forall m, (if String.eqb m d then d else m) = m) by (intros m; destruct (String.eqb_spec m d); congruence).
      cbv zeta. split; [now rewrite Id|]. split; [rewrite H2; rewrite <- map_id at 1; apply map_ext; intros; now rewrite Id|]. split; [exact H3|]. intros env He. apply H4. intros m Hm. specialize (He m Hm). now rewrite Id in He.
  Qed.
End Coordinates.

(* renaming is the last step *)
Lemma indexed_rename {A V} (K : pusher A V) P p index start end_ scale gd axis dim to_end x a d :
  select_axis_dim p (XArr (x_dims x)) axis dim Missing Missing false = Ok (a, d) ->
  x_reduce_data_indexed K P p index start end_ scale gd axis dim to_end x = rbind (x_reduce_data_indexed K P p index start end_ scale None axis dim to_end x) (opt_rename d gd).
Proof.
  intros E. unfold x_reduce_data_indexed, with_dim. rewrite E. cbn [rbind].
  repeat match goal with |- rbind ?r _ = rbind (rbind ?r _) _ => destruct r as [?|?]; cbn [rbind]; [|reflexivity] end. cbn [opt_rename].
  reflexivity.
Qed.
Lemma grouped_rename {A V} (K : pusher A V) P p by_ gd axis dim to_end x a d :
  select_axis_dim p (XArr (x_dims x)) axis dim Missing Missing false = Ok (a, d) ->
  x_reduce_data_grouped K P p by_ gd axis dim to_end x = rbind (x_reduce_data_grouped K P p by_ None axis dim to_end x) (opt_rename d gd).
Proof.
  intros E. unfold x_reduce_data_grouped, with_dim. rewrite E. cbn [rbind].
  repeat match goal with |- rbind ?r _ = rbind (rbind ?r _) _ => destruct r as [?|?]; cbn [rbind]; [|reflexivity] end. cbn [opt_rename].
  reflexivity.
Qed.

(* C172: coords_policy="first" and "last" *)
Lemma nth_in_range (index : list Z) n i : Forall (fun z => 0 <= z < n)%Z index -> i < List.length index -> (0 <= nth i index 0 < n)%Z.
Proof. intros F H. rewrite Forall_forall in F. apply F. now apply nth_In. Qed.
Lemma hd_slice {B} (d : B) l s e : s < e -> e <= List.length l -> hd d (slice s e l) = nth s l d.
Proof.
  intros H1 H2. unfold slice. destruct (e - s) as [|n] eqn:E; [lia|]. rewrite <- (firstn_skipn s l) at 2. rewrite app_nth2; rewrite firstn_length_le by lia; [|lia]. rewrite Nat.sub_diag.
  destruct (skipn s l); reflexivity.
Qed.
Lemma last_nth_end {B} (d : B) l : last l d = nth (List.length l - 1) l d.
Proof. induction l as [|a [|b l] IH]; [reflexivity|reflexivity|]. change (last (a :: b :: l) d) with (last (b :: l) d). rewrite IH. cbn [List.length nth]. replace (S (S (List.length l)) - 1) with (S (S (List.length l) - 1)) by lia. reflexivity. Qed.
Lemma last_slice {B} (d : B) l s e : s < e -> e <= List.length l -> last (slice s e l) d = nth (e - 1) l d.
Proof.
  intros H1 H2. rewrite last_nth_end. unfold slice. rewrite firstn_length_le by (rewrite skipn_length; lia).
  assert (X : forall (u : list B) n i, i < n -> nth i (firstn n u) d = nth i u d). { clear. induction u as [|a u IH]; intros [|n] [|i] H; cbn; try lia; try reflexivity. apply IH. lia. }
  rewrite X by lia. rewrite <- (firstn_skipn s l) at 2. rewrite app_nth2; rewrite firstn_length_le by lia; [|lia]. f_equal. lia.
Qed.

Theorem indexed_coords : forall {T} (dflt : T) {A V} (K : pusher A V) (P : packer A) md index start end_ scale (groups : option (list T)) gd axis dim d to_end x cs,
  NoDup (x_dims x) -> chooses (List.length md) axis dim d x -> ~ In d md -> coords_of x cs -> free_coord cs d (renamed d gd) ->
  validate_index (dim_size x d) index start end_ = Ok tt -> (forall k, k < List.length start -> (nth k start 0 < nth k end_ 0)%Z) ->
  let group := fun k => slice (Z.to_nat (nth k start 0%Z)) (Z.to_nat (nth k end_ 0%Z)) index in
  let result := x_reduce_data_indexed K P (params_for md) index start end_ scale gd axis dim to_end x in
  (exists cs', taken dflt x d (renamed d gd) (List.length start) (fun k => Z.to_nat (hd 0%Z (group k))) cs cs' /\
     xc_reduce_data_indexed dflt K P (params_for md) index start end_ scale PFirst groups gd axis dim to_end x cs = rmap (fun g => (g, cs')) result) /\
  (exists cs', taken dflt x d (renamed d gd) (List.length start) (fun k => Z.to_nat (last (group k) 0%Z)) cs cs' /\
     xc_reduce_data_indexed dflt K P (params_for md) index start end_ scale PLast groups gd axis dim to_end x cs = rmap (fun g => (g, cs')) result).
Proof.
  intros T dflt A V K P md index start end_ scale groups gd axis dim d to_end x cs N HC Nd Hcs Fr Ev Hse group result.
  destruct (chooses_select x md axis dim d N Nd HC) as (a & _ & Es).
  apply validate_index_iff in Ev. destruct Ev as [(F & Hl & B) _]. rewrite Forall_forall in B.
  assert (BK : forall k, k < List.length start -> (0 <= nth k start 0 < nth k end_ 0 /\ nth k end_ 0 <= Z.of_nat (List.length index))%Z).
  { intros k Hk. specialize (Hse k Hk). specialize (B (nth k start 0%Z, nth k end_ 0%Z)). cbn [fst snd] in B. assert (In (nth k start 0%Z, nth k end_ 0%Z) (combine start end_)) by (rewrite <- combine_nth by lia; apply nth_In; rewrite combine_length; lia). specialize (B H). lia. }
  assert (X : forall pol at_ (pick : list Z -> Z), (pol = PFirst /\ at_ = start \/ pol = PLast /\ at_ = map (fun e => e - 1)%Z end_) -> List.length at_ = List.length start ->
    (forall k, k < List.length start -> (0 <= nth k at_ 0 < Z.of_nat (List.length index))%Z /\ nth (Z.to_nat (nth k at_ 0%Z)) index 0%Z = pick (group k)) ->
    exists cs', taken dflt x d (renamed d gd) (List.length start) (fun k => Z.to_nat (pick (group k))) cs cs' /\
      xc_reduce_data_indexed dflt K P (params_for md) index start end_ scale pol groups gd axis dim to_end x cs = rmap (fun g => (g, cs')) result).
  { intros pol at_ pick Hpol La Hk. set (rows := map (fun z => nth (Z.to_nat z) index 0%Z) at_).
    assert (Fr' : Forall (fun z => 0 <= z < Z.of_nat (dim_size x d))%Z rows).
    { apply Forall_forall. intros z Hz. apply in_map_iff in Hz. destruct Hz as (w & <- & Hw). destruct (In_nth _ _ 0%Z Hw) as (k & Lk & <-). destruct (Hk k ltac:(lia)) as [H _]. apply nth_in_range; [exact F|lia]. }
    destruct (isel_rename_taken dflt x d rows gd cs Hcs Fr' Fr) as (cs1 & cs' & E1 & E2 & R). exists cs'. split.
    - unfold rows in R at 1. rewrite map_length, La in R. clear - R La Hk. induction R as [|c c' cs cs' (H1 & H2 & H3 & H4) R IH]; [constructor|]. constructor; [|exact IH]. cbv zeta. split; [exact H1|]. split; [exact H2|]. split; [exact H3|].
      intros env He. rewrite (H4 env He). unfold co_at. f_equal. apply map_ext_in. intros m Hm. destruct (String.eqb_spec m d) as [->|_]; [|reflexivity]. specialize (He d Hm). rewrite String.eqb_refl in He.
      destruct (Hk (env (renamed d gd)) He) as [_ <-]. unfold rows. rewrite (nth_indep _ 0%Z ((fun z => nth (Z.to_nat z) index 0%Z) 0%Z)) by (rewrite map_length; lia). now rewrite (map_nth (fun z => nth (Z.to_nat z) index 0%Z)).
    - unfold result. rewrite (indexed_rename K P (params_for md) index start end_ scale gd axis dim to_end x a d Es). unfold xc_reduce_data_indexed.
      destruct (x_reduce_data_indexed K P (params_for md) index start end_ scale None axis dim to_end x) as [g|e]; [|reflexivity]. cbn [rbind]. unfold chosen_axis. rewrite Es. cbn [rbind].
      assert (Em : mapR (fun z => rmap (fun i => nth i index 0%Z) (index_int z (List.length index))) at_ = Ok rows).
      { apply (mapR_ok _ (fun z => nth (Z.to_nat z) index 0%Z)). intros z Hz. destruct (In_nth _ _ 0%Z Hz) as (k & Lk & <-). destruct (Hk k ltac:(lia)) as [H _]. rewrite index_int_in by exact H. reflexivity. }
      destruct Hpol as [[-> E]|[-> E]]; rewrite E in Em; rewrite Em; cbn [rbind]; rewrite E1; cbn [rbind]; rewrite E2; destruct (opt_rename d gd g); reflexivity. }
  split.
  - apply (X PFirst start (hd 0%Z)); [now left|reflexivity|]. intros k Hk. specialize (BK k Hk). split; [lia|]. symmetry. apply hd_slice; lia.
  - apply (X PLast (map (fun e => e - 1)%Z end_) (fun l => last l 0%Z)); [now right|rewrite map_length; lia|]. intros k Hk. specialize (BK k Hk).
    rewrite (nth_indep _ 0%Z ((fun e => e - 1)%Z 0%Z)) by (rewrite map_length; lia). rewrite (map_nth (fun e => e - 1)%Z). split; [lia|]. unfold group. rewrite last_slice by lia. f_equal. lia.
Qed.

(* C173: coordinates that are dropped, and groups= *)
Lemma out_coords_without {T} (ds : list sname) (cs : coords T) : NoDup (map fst cs) -> without ds cs (out_coords ds cs).
Proof.
  intros N. split.
  - unfold out_coords. induction cs as [|c cs IH]; cbn [filter map]; [constructor|]. inversion N as [|? ? Hn N']; subst. destruct (forallb _ _); [|now apply IH]. cbn [map]. constructor; [|now apply IH].
    intros Q. apply Hn. apply in_map_iff in Q. destruct Q as (c' & E & Hc). apply filter_In in Hc. rewrite <- E. now apply in_map.
  - intros n c. unfold out_coords. rewrite filter_In. cbn [snd]. rewrite forallb_forall. split; intros [H1 H2]; (split; [exact H1|]).
    + intros d Hd Q. specialize (H2 d Q). apply negb_true_iff, smem_false in H2. contradiction.
    + intros d Hd. apply negb_true_iff, smem_false. intros Q. exact (H2 d Q Hd).
Qed.
Lemma out_coords_all {T} (cs : coords T) : out_coords [] cs = cs.
Proof. unfold out_coords. induction cs as [|c cs IH]; [reflexivity|]. cbn [filter]. replace (forallb (fun n => negb (smem n [])) (co_dims (snd c))) with true; [now rewrite IH|]. symmetry. apply forallb_forall. reflexivity. Qed.
Section Groups.
  Context {T : Type} (dflt : T) (x : xarr) (d : sname) (cs : coords T).
  Hypothesis Hd : In d (x_dims x).
  Hypothesis HC : coords_of x cs.
  Lemma kept_other n c : In (n, c) (out_coords [d] cs) -> n <> d /\ ~ In d (co_dims c).
  Proof.
    intros H. apply (out_coords_without [d] cs (proj1 HC)) in H. destruct H as [H1 H2]. specialize (H2 d (or_introl eq_refl)). split; [|exact H2]. intros ->. apply H2. destruct (proj2 HC d c H1) as (_ & _ & _ & Q). rewrite (Q Hd). now left.
  Qed.
  Lemma rename_other new (l : coords T) : (forall n c, In (n, c) l -> n <> d /\ ~ In d (co_dims c)) ->
    map (fun c => (rename_name d new (fst c), Co (map (rename_name d new) (co_dims (snd c))) (co_val (snd c)))) l = l.
  Proof.
    intros H. rewrite <- map_id. apply map_ext_in. intros [n [ds v]] Hc. destruct (H n _ Hc) as [H1 H2]. cbn [fst snd co_dims co_val] in *. unfold rename_name at 1. rewrite (proj2 (String.eqb_neq _ _) H1). repeat f_equal.
    rewrite <- map_id. apply map_ext_in. intros m Hm. unfold rename_name. destruct (String.eqb_spec m d) as [->|_]; [contradiction|reflexivity].
  Qed.
  Lemma rename_kept gd : rename_coords d gd (out_coords [d] cs) = Ok (out_coords [d] cs).
  Proof.
    destruct gd as [new|]; [|reflexivity]. cbn [rename_coords]. rewrite rename_other by exact kept_other. replace (sdup (map fst (out_coords [d] cs))) with false; [reflexivity|]. symmetry. apply sdup_false.
    apply (out_coords_without [d] cs (proj1 HC)).
  Qed.
  Lemma assign_rename gd labels n : List.length labels = n -> free_coord cs d (renamed d gd) ->
    exists cs1 cs', assign_coord d n labels (out_coords [d] cs) = Ok cs1 /\ rename_coords d gd cs1 = Ok cs' /\ labelled_by [d] (renamed d gd) labels cs cs'.
  Proof.
    intros <- Fr. unfold assign_coord. rewrite Nat.eqb_refl. cbn [negb]. pose proof (out_coords_without [d] cs (proj1 HC)) as W.
    assert (E : filter (fun c => negb (String.eqb (fst c) d)) (out_coords [d] cs) = out_coords [d] cs).
    { assert (X : forall l : coords T, (forall n c, In (n, c) l -> n <> d) -> filter (fun c => negb (String.eqb (fst c) d)) l = l).
      { clear. induction l as [|[n c] l IH]; intros H; [reflexivity|]. cbn [filter fst]. rewrite (proj2 (String.eqb_neq _ _) (H n c (or_introl eq_refl))). cbn [negb]. f_equal. apply IH. intros n' c' H'. apply (H n' c'). now right. }
      apply X. intros n c H. apply (kept_other n c H). }
    rewrite E. exists (out_coords [d] cs ++ [(d, Co [d] (Grid [List.length labels] labels))])%list. destruct gd as [new|]; cbn [rename_coords renamed] in *.
    - rewrite map_app. rewrite rename_other by exact kept_other. cbn [map fst snd co_dims co_val]. unfold rename_name. rewrite String.eqb_refl.
      assert (Ns : NoDup (map fst (out_coords [d] cs ++ [(new, Co [new] (Grid [List.length labels] labels))])%list)).
      { rewrite map_app. cbn [map fst]. apply (Permutation_NoDup (l := new :: map fst (out_coords [d] cs))); [apply Permutation_cons_append|]. constructor; [|apply W]. intros Q. apply in_map_iff in Q. destruct Q as ([n c] & En & Hc). cbn [fst] in En. subst n.
        destruct Fr as [Fr|Fr]; [destruct (kept_other new c Hc); congruence|]. apply Fr. change new with (fst (new, c)). apply in_map. apply W in Hc. apply Hc. }
      eexists. split; [reflexivity|]. rewrite (proj2 (sdup_false _) Ns). split; [reflexivity|]. exists (out_coords [d] cs). split; [exact W|reflexivity].
    - eexists. split; [reflexivity|]. split; [reflexivity|]. exists (out_coords [d] cs). split; [exact W|reflexivity].
  Qed.
End Groups.

Lemma named_size {B T} (dz : T) (val : B -> list nat -> T) run to_end x d n md g : NoDup (x_dims x) -> In d (x_dims x) -> ~ In d md ->
  holds_named dz val run (result_dims to_end (x_dims x) d d md) (result_size (dim_size x) d n) d md g -> lg_size g d = n.
Proof.
  intros N Hd Nd (H1 & _ & H2 & _). unfold lg_size. rewrite H1, H2.
  assert (Q : In d (result_dims to_end (x_dims x) d d md)).
  { unfold result_dims. destruct to_end; [apply in_or_app; right; now left|]. apply in_map_iff. exists d. now rewrite String.eqb_refl. }
  pose proof (PropParams.position_nth _ _ Q) as E. rewrite (nth_indep _ 0 (result_size (dim_size x) d n "")) by (rewrite map_length; apply nth_error_Some; congruence). rewrite map_nth, (nth_error_nth _ _ _ E).
  unfold result_size. now rewrite String.eqb_refl.
Qed.

Lemma rename_taken {T} (dflt : T) x d gd (cs : coords T) : coords_of x cs -> free_coord cs d (renamed d gd) ->
  exists cs', rename_coords d gd cs = Ok cs' /\ taken dflt x d (renamed d gd) (dim_size x d) (fun k => k) cs cs'.
Proof.
  intros [N W] Fr.
  assert (Sz : forall m, (if String.eqb m d then dim_size x d else dim_size x m) = dim_size x m) by (intros m; destruct (String.eqb_spec m d); congruence).
  destruct gd as [new|]; cbn [rename_coords renamed] in *.
  - set (l := map _ cs). assert (En : map fst l = map (rename_name d new) (map fst cs)) by (unfold l; now rewrite !map_map).
    rewrite (proj2 (sdup_false (map fst l))) by (rewrite En; now apply renames_free). exists l. split; [reflexivity|]. unfold l. clear N Fr l En.
    induction cs as [|[n c] cs IH]; [constructor|]. cbn [map]. constructor; [|apply IH; intros n' c' H; apply (W n'); now right]. cbn [fst snd co_dims co_val]. destruct (W n c (or_introl eq_refl)) as (_ & _ & S & _).
    split; [reflexivity|]. split; [reflexivity|]. split; [rewrite S; apply map_ext; intros; now rewrite Sz|]. intros env He. unfold co_at. cbn [co_dims co_val]. f_equal. rewrite map_map. apply map_ext. intros m. unfold rename_name. destruct (String.eqb m d); reflexivity.
  - exists cs. split; [reflexivity|]. clear N Fr. assert (Id : forall m, (if String.eqb m d then d else m) = m) by (intros m; destruct (String.eqb_spec m d); congruence).
    induction cs as [|[n c] cs IH]; [constructor|]. constructor; [|apply IH; intros n' c' H; apply (W n'); now right]. cbn [fst snd]. destruct (W n c (or_introl eq_refl)) as (_ & _ & S & _).
    split; [now rewrite Id|]. split; [rewrite <- map_id at 1; apply map_ext; intros; now rewrite Id|]. split; [rewrite S; apply map_ext; intros; now rewrite Sz|]. intros env He. unfold co_at. f_equal. apply map_ext. intros m. destruct (String.eqb_spec m d); congruence.
Qed.
Lemma jackknife_rename {A V} (K : pusher A V) P p red gd axis dim to_end x a d :
  select_axis_dim p (XArr (x_dims x)) axis dim Missing Missing false = Ok (a, d) ->
  x_jackknife_data K P p red gd axis dim to_end x = rbind (x_jackknife_data K P p red None axis dim to_end x) (opt_rename d gd).
Proof.
  intros E. unfold x_jackknife_data, with_dim. rewrite E. cbn [rbind].
  repeat match goal with |- rbind ?r _ = rbind (rbind ?r _) _ => destruct r as [?|?]; cbn [rbind]; [|reflexivity] end. cbn [opt_rename].
  reflexivity.
Qed.

Section Results.
  Context {T : Type} (dflt : T) {A V : Type} (K : pusher A V) (P : packer A) (md : list sname) (x : xarr) (cs : coords T).
  Hypothesis N : NoDup (x_dims x).
  Hypothesis HC : coords_of x cs.

  Theorem reduced_coords axis dim (ds : list sname) keepdims to_end : chooses_many md axis dim ds x ->
    exists cs', without ds cs cs' /\ xc_reduce_data K P (params_for md) axis dim keepdims to_end x cs = rmap (fun g => (g, cs')) (x_reduce_data K P (params_for md) axis dim keepdims to_end x).
  Proof.
    intros H. destruct (chooses_many_select x md axis dim ds N H) as (axes & Es). exists (out_coords ds cs). split; [apply out_coords_without, HC|]. unfold xc_reduce_data. rewrite Es. cbn [rbind].
    destruct (x_reduce_data K P (params_for md) axis dim keepdims to_end x); reflexivity.
  Qed.
  Theorem kept_coords : (forall inverse axis dim to_end,
      xc_cumulative K P (params_for md) inverse axis dim to_end x cs = rmap (fun g => (g, cs)) (x_cumulative K P (params_for md) inverse axis dim to_end x)) /\
    (forall window min_periods center zero axis dim to_end, xc_rolling_data K P (params_for md) window min_periods center zero axis dim to_end x cs =
       rmap (fun g => (g, cs)) (x_rolling_data K P (params_for md) window min_periods center zero axis dim to_end x)).
  Proof. unfold xc_cumulative, xc_rolling_data. rewrite out_coords_all. split; reflexivity. Qed.
  Section Along.
    Context (axis : marg axis_arg) (dim : marg sname) (d : sname).
    Hypothesis HD : chooses (List.length md) axis dim d x.
    Hypothesis Nd : ~ In d md.

    Theorem resampled_coords freq rep_dim to_end : rep_dim <> d ->
      exists cs', without [d] cs cs' /\ xc_resample_data K P (params_for md) freq rep_dim axis dim to_end x cs = rmap (fun g => (g, cs')) (x_resample_data K P (params_for md) freq rep_dim axis dim to_end x).
    Proof.
      intros R. destruct (chooses_select x md axis dim d N Nd HD) as (a & _ & Es). exists (out_coords [d] cs). split; [apply out_coords_without, HC|]. unfold xc_resample_data, chosen_axis. rewrite Es. cbn [rbind].
      rewrite (proj2 (String.eqb_neq d rep_dim)) by congruence. destruct (x_resample_data K P (params_for md) freq rep_dim axis dim to_end x); reflexivity.
    Qed.
    Theorem jackknifed_coords red rep_dim to_end : free_coord cs d (renamed d rep_dim) ->
      exists cs', taken dflt x d (renamed d rep_dim) (dim_size x d) (fun k => k) cs cs' /\
        xc_jackknife_data K P (params_for md) red rep_dim axis dim to_end x cs = rmap (fun g => (g, cs')) (x_jackknife_data K P (params_for md) red rep_dim axis dim to_end x).
    Proof.
      intros Fr. destruct (chooses_select x md axis dim d N Nd HD) as (a & _ & Es). destruct (rename_taken dflt x d rep_dim cs HC Fr) as (cs' & E & R). exists cs'. split; [exact R|].
      rewrite (jackknife_rename K P (params_for md) red rep_dim axis dim to_end x a d Es). unfold xc_jackknife_data, chosen_axis. rewrite Es. cbn [rbind]. rewrite out_coords_all, E.
      destruct (x_jackknife_data K P (params_for md) red None axis dim to_end x) as [g|e]; [|reflexivity]. cbn [rbind]. destruct (opt_rename d rep_dim g); reflexivity.
    Qed.
    Theorem plain_groups_coords by_ index start end_ scale gd to_end : exists cs', without [d] cs cs' /\
      xc_reduce_data_grouped K P (params_for md) by_ None gd axis dim to_end x cs = rmap (fun g => (g, cs')) (x_reduce_data_grouped K P (params_for md) by_ gd axis dim to_end x) /\
      (forall groups, xc_reduce_data_indexed dflt K P (params_for md) index start end_ scale PNone groups gd axis dim to_end x cs =
         rmap (fun g => (g, cs')) (x_reduce_data_indexed K P (params_for md) index start end_ scale gd axis dim to_end x)) /\
      xc_reduce_data_indexed dflt K P (params_for md) index start end_ scale PGroup None gd axis dim to_end x cs = rmap (fun g => (g, cs')) (x_reduce_data_indexed K P (params_for md) index start end_ scale gd axis dim to_end x).
    Proof.
      destruct (chooses_select x md axis dim d N Nd HD) as (a & _ & Es). pose proof (chooses_dim _ _ _ _ _ HD) as Hd. exists (out_coords [d] cs). split; [apply out_coords_without, HC|].
      rewrite (indexed_rename K P (params_for md) index start end_ scale gd axis dim to_end x a d Es), (grouped_rename K P (params_for md) by_ gd axis dim to_end x a d Es).
      unfold xc_reduce_data_grouped, xc_reduce_data_indexed, chosen_axis. rewrite Es. cbn [rbind]. rewrite (rename_kept x d cs Hd HC).
      split; [|split; [intros _|]].
      - destruct (x_reduce_data_grouped K P (params_for md) by_ None axis dim to_end x) as [g|e]; [|reflexivity]. cbn [rbind]. destruct (opt_rename d gd g); reflexivity.
      - destruct (x_reduce_data_indexed K P (params_for md) index start end_ scale None axis dim to_end x) as [g|e]; [|reflexivity]. cbn [rbind]. destruct (opt_rename d gd g); reflexivity.
      - destruct (x_reduce_data_indexed K P (params_for md) index start end_ scale None axis dim to_end x) as [g|e]; [|reflexivity]. cbn [rbind]. destruct (opt_rename d gd g); reflexivity.
    Qed.
    Theorem named_groups_coords ok labels gd to_end : moment_array K ok P -> labelled_moments P md x -> free_coord cs d (renamed d gd) ->
      (forall by_ m, zmax_of m by_ -> (-1 <= m)%Z -> List.length by_ = dim_size x d ->
        let r := xc_reduce_data_grouped K P (params_for md) by_ (Some labels) gd axis dim to_end x cs in
        let values := x_reduce_data_grouped K P (params_for md) by_ gd axis dim to_end x in
        (List.length labels = Z.to_nat (m + 1) -> exists cs', labelled_by [d] (renamed d gd) labels cs cs' /\ r = rmap (fun g => (g, cs')) values) /\
        (List.length labels <> Z.to_nat (m + 1) -> exists e, r = Raise e)) /\
      (forall index start end_ scale, validate_index (dim_size x d) index start end_ = Ok tt -> (forall s, scale = Some s -> List.length s = List.length index) ->
        let r := xc_reduce_data_indexed dflt K P (params_for md) index start end_ scale PGroup (Some labels) gd axis dim to_end x cs in
        let values := x_reduce_data_indexed K P (params_for md) index start end_ scale gd axis dim to_end x in
        (List.length labels = List.length start -> exists cs', labelled_by [d] (renamed d gd) labels cs cs' /\ r = rmap (fun g => (g, cs')) values) /\
        (List.length labels <> List.length start -> exists e, r = Raise e)).
    Proof.
      intros MA LM Fr. destruct (chooses_select x md axis dim d N Nd HD) as (a & _ & Es). pose proof (chooses_dim _ _ _ _ _ HD) as Hd.
      assert (F0 : free_name x d None) by now left. split.
      - intros by_ m Hm Pm L r values. assert (Ez : zmax by_ = Ok m).
        { assert (Nb : by_ <> []) by (destruct Hm as [Q _]; intros ->; destruct Q). destruct (zmax_ok by_ Nb) as (m' & E & M1 & M2). rewrite E. f_equal. destruct Hm as [M3 M4]. rewrite Forall_forall in M2, M4. specialize (M2 m M3). specialize (M4 m' M1). lia. }
        pose proof (grouped_named K ok P MA by_ None md axis dim d to_end x LM HD Nd) as G. cbv zeta in G. rewrite Ez in G. destruct G as (G & _ & _). specialize (G L Pm F0). cbn [renamed] in G.
        unfold r, values. rewrite (grouped_rename K P (params_for md) by_ gd axis dim to_end x a d Es). unfold xc_reduce_data_grouped, chosen_axis. rewrite Es. cbn [rbind].
        destruct (x_reduce_data_grouped K P (params_for md) by_ None axis dim to_end x) as [g|e]; cbn [rbind by_name] in *.
        + rewrite (named_size _ _ _ _ _ _ _ _ _ N Hd Nd G). split.
          * intros El. destruct (assign_rename x d cs Hd HC gd labels _ El Fr) as (cs1 & cs' & E1 & E2 & R). exists cs'. split; [exact R|]. rewrite E1. cbn [rbind]. rewrite E2. destruct (opt_rename d gd g); reflexivity.
          * intros El. unfold assign_coord. rewrite (proj2 (Nat.eqb_neq _ _) El). cbn [negb rbind]. eauto.
        + split; [|intros _; eauto]. intros El. destruct (assign_rename x d cs Hd HC gd labels _ El Fr) as (cs1 & cs' & E1 & E2 & R). exists cs'. split; [exact R|reflexivity].
      - intros index start end_ scale Ev Hs r values.
        pose proof (indexed_named K ok P MA index start end_ scale None md axis dim d to_end x LM HD Nd) as G. cbv zeta in G. destruct G as (G & _ & _). specialize (G (conj Ev Hs) F0). cbn [renamed] in G.
        unfold r, values. rewrite (indexed_rename K P (params_for md) index start end_ scale gd axis dim to_end x a d Es). unfold xc_reduce_data_indexed, chosen_axis. rewrite Es. cbn [rbind].
        destruct (x_reduce_data_indexed K P (params_for md) index start end_ scale None axis dim to_end x) as [g|e]; cbn [rbind by_name] in *.
        + rewrite (named_size _ _ _ _ _ _ _ _ _ N Hd Nd G). split.
          * intros El. destruct (assign_rename x d cs Hd HC gd labels _ El Fr) as (cs1 & cs' & E1 & E2 & R). exists cs'. split; [exact R|]. rewrite E1. cbn [rbind]. rewrite E2. destruct (opt_rename d gd g); reflexivity.
          * intros El. unfold assign_coord. rewrite (proj2 (Nat.eqb_neq _ _) El). cbn [negb rbind]. eauto.
        + split; [|intros _; eauto]. intros El. destruct (assign_rename x d cs Hd HC gd labels _ El Fr) as (cs1 & cs' & E1 & E2 & R). exists cs'. split; [exact R|reflexivity].
    Qed.
  End Along.
End Results.
