(* CentralMomentsData over a labelled array: construction, transpose, pipe, rename,
   indexing, iteration and conversion to CentralMomentsArray (C59). *)
From Coq Require Import String Permutation.
From Verif Require Import Base BaseLemmas Checks ModelKernels ModelIndex ModelAxes ModelState ModelParams ModelWrap SpecAxes ProofAxes ProofArrays PropAxes PropParams PropWrap PropReshape PropConcat.
Local Open Scope string_scope.
Local Open Scope nat_scope.

(* ---- vocabulary ------------------------------------------------------------------ *)

(* a labelled array: distinct names, one for each axis *)
Definition x_ok (x : xarr) : Prop := tensor_ok (x_val x) /\ NoDup (x_dims x) /\ List.length (x_dims x) = List.length (x_shape x).
Definition dim_size (x : xarr) (d : sname) : nat := nth (position String.eqb d (x_dims x)) (x_shape x) 0.
(* the entry at an index for every name *)
Definition x_at (x : xarr) (env : sname -> nat) : Qc := tget (x_val x) (map env (x_dims x)).
Definition x_inside (x : xarr) (env : sname -> nat) : Prop := forall d, In d (x_dims x) -> env d < dim_size x d.
(* the same array up to the order of dimensions *)
Definition x_same (x y : xarr) : Prop :=
  (forall d, In d (x_dims x) <-> In d (x_dims y)) /\ (forall d, In d (x_dims x) -> dim_size x d = dim_size y d) /\
  forall env, x_inside x env -> x_at x env = x_at y env.
(* c is an object with moment dimensions md, at any position *)
Definition xholds (c : cmdata) (md : list sname) : Prop :=
  x_ok (cx_obj c) /\ NoDup md /\ (List.length md = 1 \/ List.length md = 2) /\ incl md (x_dims (cx_obj c)) /\
  Forall (fun d => 2 <= dim_size (cx_obj c) d) md /\ cx_params c = XP (Some (Z.of_nat (List.length md))) (Some md).

Lemma map_nth_dims (l : list sname) : map (fun a => nth a l "") (seq 0 (List.length l)) = l.
Proof. now apply map_nth_seq. Qed.
Lemma map_named {T} (f : sname -> T) (l : list sname) : map f l = map (fun a => f (nth a l "")) (seq 0 (List.length l)).
Proof. rewrite <- (map_map (fun a => nth a l "") f). now rewrite map_nth_dims. Qed.
Lemma pos_nth (l : list sname) k : NoDup l -> k < List.length l -> position String.eqb (nth k l "") l = k.
Proof. intros N H. apply position_unique; [exact N|]. now apply nth_error_nth'. Qed.
Lemma pos_lt (l : list sname) d : In d l -> position String.eqb d l < List.length l /\ nth (position String.eqb d l) l "" = d.
Proof. intros H. pose proof (PropParams.position_nth l d H) as E. split; [apply nth_error_Some; congruence|now apply nth_error_nth]. Qed.
Lemma shape_named x : x_ok x -> x_shape x = map (dim_size x) (x_dims x).
Proof.
  intros (_ & N & L). transitivity (map (fun a => nth a (x_shape x) 0) (seq 0 (List.length (x_dims x)))); [symmetry; apply map_nth_seq; congruence|].
  transitivity (map (dim_size x) (map (fun a => nth a (x_dims x) "") (seq 0 (List.length (x_dims x))))); [|now rewrite map_nth_dims]. rewrite map_map.
  apply map_ext_in. intros a Ha. apply in_seq in Ha. unfold dim_size. now rewrite pos_nth by (auto; lia).
Qed.
Lemma sizes_named x d : In d (x_dims x) -> sizes (x_dims x) (x_shape x) d = Ok (dim_size x d).
Proof. intros H. unfold sizes. apply smem_In in H. now rewrite H. Qed.
Lemma sizes_list x md : incl md (x_dims x) -> mapR (sizes (x_dims x) (x_shape x)) md = Ok (map (dim_size x) md).
Proof.
  intros I. induction md as [|d md IH]; [reflexivity|]. cbn [mapR map]. rewrite sizes_named by (apply I; now left). cbn [rbind]. rewrite IH; [reflexivity|]. intros e He. apply I. now right.
Qed.
Lemma x_inside_valid x env : x_ok x -> (x_inside x env <-> valid (x_shape x) (map env (x_dims x))).
Proof.
  intros H. rewrite (shape_named x H). unfold x_inside. generalize (x_dims x). intros l. induction l as [|d l IH]; cbn [map].
  - split; [constructor|intros _ d []].
  - split.
    + intros Q. constructor; [apply Q; now left|]. apply IH. intros e He. apply Q. now right.
    + intros V e [<-|He]; inversion V; subst; auto. now apply IH.
Qed.
(* names for any index *)
Lemma named_index (l : list sname) (idx : list nat) : NoDup l -> List.length idx = List.length l -> map (fun d => nth (position String.eqb d l) idx 0) l = idx.
Proof.
  intros N L. transitivity (map (fun a => nth a idx 0) (seq 0 (List.length l))); [|now apply map_nth_seq].
  rewrite map_named. apply map_ext_in. intros a Ha. apply in_seq in Ha. now rewrite pos_nth by (auto; lia).
Qed.
Lemma x_same_refl x : x_same x x.
Proof. repeat split; auto. Qed.
Lemma x_same_holds c y md : xholds c md -> x_ok y -> x_same (cx_obj c) y -> xholds (CX y (cx_params c)) md.
Proof.
  intros (Ho & Nm & Lm & Im & Sm & P) Hy (S1 & S2 & _). unfold xholds. cbn [cx_obj cx_params]. split; [exact Hy|]. split; [exact Nm|]. split; [exact Lm|].
  split; [intros d Hd; apply S1; auto|]. split; [|exact P]. rewrite Forall_forall in *. intros d Hd. rewrite <- S2 by auto. auto.
Qed.

(* ---- construction ------------------------------------------------------------------- *)

Lemma x_checked_iff x n md : incl md (x_dims x) -> (List.length md = 1 \/ List.length md = 2) ->
  (Forall (fun d => 2 <= dim_size x d) md -> x_check_data (XP n (Some md)) (x_dims x) (x_shape x) = Ok tt /\ cx_checked (CX x (XP n (Some md))) = Ok (CX x (XP n (Some md)))) /\
  (~ Forall (fun d => 2 <= dim_size x d) md -> x_check_data (XP n (Some md)) (x_dims x) (x_shape x) = Raise EValue \/ cx_checked (CX x (XP n (Some md))) = Raise EValue).
Proof.
  intros I L. unfold x_check_data, cx_checked, x_get_mom, iter_dims. cbn [xp_dims rbind cx_params cx_obj]. rewrite sizes_list by exact I. cbn [rbind].
  set (s := map (dim_size x) md). assert (Ls : List.length s = 1 \/ List.length s = 2) by (unfold s; now rewrite map_length). destruct (mom_of_shape s Ls) as [M1 M2].
  assert (Sh : Forall (fun d => 2 <= dim_size x d) md <-> Forall (fun n => 2 <= n) s).
  { unfold s. clear. induction md as [|a M IH]; cbn [map]; split; intros H; constructor; inversion H; subst; auto; now apply IH. }
  rewrite Sh. split; intros H.
  - rewrite M1 by (eapply Forall_impl; [|exact H]; cbn; lia). split; [reflexivity|]. cbn [rbind]. now rewrite (proj2 (positive_moms s) H).
  - destruct (Forall_dec (fun n => 1 <= n) (fun n => le_dec 1 n) s) as [F|F].
    + right. rewrite M1 by exact F. cbn [rbind]. destruct (existsb _ _) eqn:X; [reflexivity|]. elim H. now apply positive_moms.
    + left. now rewrite M2.
Qed.
Lemma incl_or (a b : list sname) : incl a b \/ exists d, In d a /\ ~ In d b.
Proof.
  induction a as [|x a IH]; [left; intros d []|]. destruct (in_dec string_dec x b) as [H|H]; [|right; exists x; split; [now left|exact H]].
  destruct IH as [IH|(d & H1 & H2)]; [left|right; exists d; split; [now right|exact H2]]. intros d [<-|Hd]; auto.
Qed.
Lemma sizes_missing dims shape md d : In d md -> ~ In d dims -> exists e, mapR (sizes dims shape) md = Raise e.
Proof.
  intros H N. induction md as [|x md IH]; [destruct H|]. cbn [mapR]. destruct (sizes dims shape x) as [s|e] eqn:E; cbn [rbind]; [|eauto].
  destruct H as [->|H]; [|destruct (IH H) as (e & ->); cbn; eauto]. unfold sizes in E. destruct (smem d dims) eqn:S; [|discriminate]. apply smem_In in S. contradiction.
Qed.
(* the array is kept as it is; the named moment dimensions must be there, with length
   at least two, else ValueError *)
Theorem x_init_exact : forall m ndim axes dims x md, x_ok x ->
  x_factory false m ndim dims axes (ODataArray (x_dims x)) (Some 1%Z) = Ok (XP (Some (Z.of_nat (List.length md))) (Some md)) ->
  List.length md = 1 \/ List.length md = 2 ->
  (incl md (x_dims x) -> Forall (fun d => 2 <= dim_size x d) md ->
     exists c, cx_init m ndim axes dims x = Ok c /\ cx_obj c = x /\ (NoDup md -> xholds c md)) /\
  (~ (incl md (x_dims x) /\ Forall (fun d => 2 <= dim_size x d) md) -> cx_init m ndim axes dims x = Raise EValue).
Proof.
  intros m ndim axes dims x md Hx E L. unfold cx_init. rewrite E. cbn [rbind]. split.
  - intros I S. destruct (x_checked_iff x (Some (Z.of_nat (List.length md))) md I L) as [C _]. destruct (C S) as [C1 C2]. rewrite C1. cbn [rbind]. rewrite C2.
    eexists. split; [reflexivity|]. split; [reflexivity|]. intros N. repeat split; auto; apply Hx.
  - intros X. destruct (incl_or md (x_dims x)) as [I|(d & D1 & D2)].
    + destruct (x_checked_iff x (Some (Z.of_nat (List.length md))) md I L) as [_ C].
      destruct (x_check_data _ (x_dims x) (x_shape x)) as [[]|e] eqn:K; cbn [rbind].
      * destruct C as [C|C]; [intros S; apply X; auto|discriminate|exact C].
      * unfold x_check_data in K. destruct (x_get_mom _ _ _); congruence.
    + unfold x_check_data, x_get_mom, iter_dims. cbn [xp_dims rbind]. destruct (sizes_missing (x_dims x) (x_shape x) md d D1 D2) as (e & ->). reflexivity.
Qed.

(* ---- transpose and pipe --------------------------------------------------------------- *)

(* reordering dimensions by name keeps every entry *)
Lemma transpose_named x ds order : x_ok x -> Permutation ds (x_dims x) -> mapR (get_axis_num (x_dims x)) ds = Ok order ->
  let y := XA ds (ttranspose order (x_val x)) in x_ok y /\ x_same x y.
Proof.
  intros H P E y. pose proof H as (Ho & N & L). apply axis_nums in E; [|exact N].
  assert (Eo : order = map (fun d => position String.eqb d (x_dims x)) ds).
  { clear -E N. induction E as [|a d order ds H E IH]; [reflexivity|]. cbn [map]. f_equal; [|exact IH]. symmetry. now apply position_unique. }
  assert (Ed : map (fun a => nth a (x_dims x) "") order = ds).
  { clear -E. induction E as [|a d order ds H E IH]; [reflexivity|]. cbn [map]. f_equal; [now apply nth_error_nth|exact IH]. }
  assert (Po : Permutation order (seq 0 (List.length (x_dims x)))).
  { rewrite Eo. transitivity (map (fun d => position String.eqb d (x_dims x)) (x_dims x)); [now apply Permutation_map|].
    rewrite map_named. erewrite map_ext_in; [rewrite map_id; reflexivity|]. intros a Ha. apply in_seq in Ha. cbv beta. apply pos_nth; [exact N|lia]. }
  assert (Nd : tndim (x_val x) = List.length (x_dims x)) by (unfold tndim; now rewrite L).
  pose proof (view_self (x_val x) Ho) as V. rewrite Nd in V.
  assert (Po' : Permutation order (seq 0 (List.length (seq 0 (List.length (x_dims x)))))) by (now rewrite seq_length).
  destruct (transpose_view (x_val x) _ _ _ order V Po') as (Hu & Su & Fu).
  rewrite map_nth_seq_id in Su, Fu by (intros a Ha; now apply (proj2 (proj2 (perm_range _ _ Po)))).
  assert (Nds : NoDup ds) by (eapply Permutation_NoDup; [symmetry; exact P|exact N]).
  assert (Hy : x_ok y).
  { split; [exact Hu|]. split; [exact Nds|]. unfold x_shape, y. cbn [x_val x_dims]. rewrite Su, map_length, <- Ed. now rewrite map_length. }
  assert (Sz : forall d, In d (x_dims x) -> dim_size x d = dim_size y d).
  { intros d Hd. assert (Hd' : In d ds) by (eapply Permutation_in; [symmetry; exact P|exact Hd]). unfold dim_size at 2. unfold x_shape, y. cbn [x_val x_dims]. rewrite Su, Eo, map_map.
    destruct (pos_lt ds d Hd') as [P1 P2].
    rewrite (nth_indep _ 0 (shape_of (x_val x) (position String.eqb "" (x_dims x)))) by (now rewrite map_length).
    rewrite (map_nth (fun d => shape_of (x_val x) (position String.eqb d (x_dims x)))), P2. reflexivity. }
  split; [exact Hy|]. split; [|split; [exact Sz|]].
  - intros d. split; apply Permutation_in; [now symmetry|exact P].
  - intros env I. set (e := fun a => env (nth a (x_dims x) "")).
    assert (Ie : inside (shape_of (x_val x)) order e).
    { intros a Ha. apply (proj2 (proj2 (perm_range _ _ Po))) in Ha. unfold e. assert (Q : In (nth a (x_dims x) "") (x_dims x)) by (now apply nth_In).
      specialize (I _ Q). unfold dim_size in I. rewrite pos_nth in I by auto. exact I. }
    specialize (Fu e Ie). unfold x_at, y. cbn [x_val x_dims]. rewrite <- Ed, map_map. unfold e in Fu. rewrite Fu. unfold entry. rewrite Nd. f_equal. apply map_named.
Qed.
Lemma sdup_false l : sdup l = false <-> NoDup l.
Proof.
  unfold sdup. rewrite Bool.negb_false_iff, Nat.eqb_eq. split.
  - intros H. apply NoDup_incl_NoDup with (l := nodup string_dec l); [apply NoDup_nodup|lia|]. intros d Hd. now apply nodup_In in Hd.
  - intros H. now rewrite nodup_fixed_point.
Qed.
Lemma forallb_incl a b : forallb (fun d => smem d b) a = true <-> incl a b.
Proof. rewrite forallb_forall. split; intros H d Hd; apply smem_In; auto. Qed.
Lemma given_some l : given (map Some l) = l.
Proof. induction l as [|d l IH]; [reflexivity|]. cbn. now rewrite <- IH at 2. Qed.
Lemma flat_some g (l : list sname) : flat_map (fun o => match o with Some d => [d] | None => g end) (map Some l) = l.
Proof. induction l as [|d l IH]; [reflexivity|]. cbn [map flat_map app]. now rewrite IH. Qed.
Lemma given_app a b : given (a ++ b) = (given a ++ given b)%list.
Proof. apply flat_map_app. Qed.
Lemma no_dots l : filter (fun o : option sname => match o with None => true | _ => false end) (map Some l) = [].
Proof. induction l as [|d l IH]; [reflexivity|]. exact IH. Qed.
(* what infix_dims accepts, and that the result is a permutation *)
Lemma infix_ok supplied all ds : NoDup all -> infix_dims supplied all = Ok ds -> Permutation ds all /\ NoDup (given supplied) /\ incl (given supplied) all.
Proof.
  intros N. unfold infix_dims. destruct (List.length _) as [|[|k]] eqn:L; [| |discriminate].
  - destruct (_ && _ && _)%bool eqn:B; [|discriminate]. intros E. inversion E; subst ds. apply Bool.andb_true_iff in B. destruct B as [B B3]. apply Bool.andb_true_iff in B. destruct B as [B1 B2].
    apply forallb_incl in B1, B2. apply Bool.negb_true_iff, sdup_false in B3. split; [|auto]. apply NoDup_Permutation; auto. intros d. split; auto.
  - destruct (_ || _)%bool eqn:B; [discriminate|]. apply Bool.orb_false_iff in B. destruct B as [B1 B2]. apply sdup_false in B1. apply Bool.negb_false_iff, forallb_incl in B2.
    intros E. inversion E; subst ds. split; [|auto]. set (names := given supplied) in *. set (rest := filter (fun d => negb (smem d names)) all).
    assert (Q : forall l, List.length (filter (fun o : option sname => match o with None => true | _ => false end) l) = 1 ->
       Permutation (flat_map (fun o => match o with Some d => [d] | None => rest end) l) (given l ++ rest)).
    { assert (Q0 : forall l, List.length (filter (fun o : option sname => match o with None => true | _ => false end) l) = 0 -> flat_map (fun o => match o with Some d => [d] | None => rest end) l = given l).
      { induction l as [|[d|] l IH]; cbn; intros H; [reflexivity| |discriminate]. now rewrite IH. }
      induction l as [|[d|] l IH]; cbn [filter List.length flat_map given]; intros H; [discriminate| |].
      - cbn [app]. constructor. apply IH. exact H.
      - rewrite Q0 by (cbn in H; lia). fold (given l). cbn [app]. apply Permutation_app_comm. }
    rewrite (Q supplied L). fold names. apply NoDup_Permutation; [|exact N|].
    + apply NoDup_app_; [exact B1|now apply NoDup_filter|]. intros d Hd Hr. apply filter_In in Hr. destruct Hr as [_ Hr]. apply Bool.negb_true_iff, smem_false in Hr. contradiction.
    + intros d. rewrite in_app_iff. unfold rest. rewrite filter_In, Bool.negb_true_iff, smem_false. destruct (in_dec string_dec d names); firstorder.
Qed.
Lemma axis_nums_incl dims ds : incl ds dims -> exists order, mapR (get_axis_num dims) ds = Ok order.
Proof.
  intros I. induction ds as [|d ds IH]; [exists []; reflexivity|]. destruct IH as [o Ho]; [intros e He; apply I; now right|]. exists (position String.eqb d dims :: o). cbn [mapR].
  unfold get_axis_num at 1. assert (S : smem d dims = true) by (apply smem_In, I; now left). rewrite S. cbn [rbind]. now rewrite Ho.
Qed.
Theorem x_transpose_same : forall dims x y, x_ok x -> x_transpose dims x = Ok y -> x_ok y /\ x_same x y /\ infix_dims dims (x_dims x) = Ok (x_dims y).
Proof.
  intros dims x y H E. unfold x_transpose in E. apply rbind_ok in E. destruct E as (ds & E1 & E). apply rbind_ok in E. destruct E as (order & E2 & E). inversion E; subst y.
  pose proof H as (_ & N & _). destruct (infix_ok _ _ _ N E1) as (P & _). destruct (transpose_named x ds order H P E2) as [T1 T2]. auto.
Qed.
Lemma x_transpose_ok dims x ds : x_ok x -> infix_dims dims (x_dims x) = Ok ds -> exists y, x_transpose dims x = Ok y /\ x_dims y = ds.
Proof.
  intros (_ & N & _) E. unfold x_transpose. rewrite E. cbn [rbind]. destruct (infix_ok _ _ _ N E) as (P & _).
  destruct (axis_nums_incl (x_dims x) ds) as [o Eo]; [intros d; now apply Permutation_in|]. rewrite Eo. cbn [rbind]. eexists. split; reflexivity.
Qed.
Lemma infix_err s a e : infix_dims s a = Raise e -> e = EValue.
Proof. unfold infix_dims. destruct (List.length _) as [|[|k]]; [destruct (_ && _)%bool|destruct (_ || _)%bool|]; congruence. Qed.

(* new_like: an array with the moment dimensions, of the same lengths, in any order *)
Lemma mom_shape_of c md : xholds c md -> cx_mom_shape c = Ok (map (dim_size (cx_obj c)) md).
Proof. intros (_ & _ & _ & I & _ & P). unfold cx_mom_shape, x_get_mom_shape, iter_dims. rewrite P. cbn [xp_dims rbind]. now rewrite sizes_list. Qed.
Lemma x_check_like_ok c md y : xholds c md ->
  (cx_check_like c y = Ok tt <-> incl md (x_dims y) /\ forall d, In d md -> dim_size y d = dim_size (cx_obj c) d).
Proof.
  intros H. pose proof (mom_shape_of c md H) as M. destruct H as (_ & _ & _ & I & _ & P). unfold cx_check_like, iter_dims. rewrite P. cbn [xp_dims rbind].
  destruct (forallb (fun d => smem d (x_dims y)) md) eqn:F.
  - apply forallb_incl in F. unfold x_get_mom_shape, iter_dims. cbn [xp_dims rbind]. rewrite sizes_list by exact F. cbn [rbind]. rewrite M. cbn [rbind]. unfold raise_if_wrong_mom_shape.
    destruct (nats_eqb _ _) eqn:E.
    + apply nats_eqb_eq in E. split; [intros _|reflexivity]. split; [exact F|]. intros d Hd. exact (map_inj_in _ _ _ E d Hd).
    + split; [discriminate|]. intros [_ Q]. rewrite (map_ext_in _ _ _ Q), nats_eqb_refl in E. discriminate.
  - split; [discriminate|]. intros [Q _]. apply forallb_incl in Q. congruence.
Qed.
Lemma x_check_like_err c md y e : xholds c md -> cx_check_like c y = Raise e -> e = EValue.
Proof.
  intros H. pose proof (mom_shape_of c md H) as M. destruct H as (_ & _ & _ & I & _ & P). unfold cx_check_like, iter_dims. rewrite P. cbn [xp_dims rbind]. destruct (forallb _ md); [|congruence].
  unfold x_get_mom_shape. destruct (rbind (iter_dims _) _) in |- *; cbn [rbind]; [|congruence]. rewrite M. cbn [rbind]. unfold raise_if_wrong_mom_shape. destruct (nats_eqb _ _); congruence.
Qed.
Lemma x_init_same c md y : xholds c md -> x_ok y -> incl md (x_dims y) -> (forall d, In d md -> dim_size y d = dim_size (cx_obj c) d) ->
  cx_init (x_as_arg (cx_params c)) None None None y = Ok (CX y (cx_params c)) /\ xholds (CX y (cx_params c)) md.
Proof.
  intros (Ho & Nm & L & I & S & P) Hy Iy Sy. assert (Sy' : Forall (fun d => 2 <= dim_size y d) md) by (rewrite Forall_forall in *; intros d Hd; rewrite Sy by exact Hd; auto). split.
  - unfold cx_init, x_as_arg, x_factory. rewrite P. cbn [xp_ndim xp_dims is_x_params rbind]. destruct (x_checked_iff y (Some (Z.of_nat (List.length md))) md Iy L) as [C _]. destruct (C Sy') as [C1 C2]. rewrite C1. cbn [rbind]. exact C2.
  - repeat split; auto; apply Hy.
Qed.
Lemma sizes_eqb_spec a b : sizes_eqb a b = true <-> (forall d, In d (x_dims a) <-> In d (x_dims b)) /\ forall d, In d (x_dims a) -> dim_size a d = dim_size b d.
Proof.
  unfold sizes_eqb. rewrite !Bool.andb_true_iff, !forallb_incl, forallb_forall. split.
  - intros [[I1 I2] F]. split; [intros d; split; auto|]. intros d Hd. specialize (F d Hd). rewrite !sizes_named in F by auto. now apply Nat.eqb_eq.
  - intros [I F]. split; [split; intros d; apply I|]. intros d Hd. rewrite !sizes_named; [apply Nat.eqb_eq; auto|now apply I|exact Hd].
Qed.
Theorem x_new_like_exact : forall c md y verify, xholds c md -> x_ok y ->
  let fits := incl md (x_dims y) /\ (forall d, In d md -> dim_size y d = dim_size (cx_obj c) d) /\
    (verify = true -> (forall d, In d (x_dims y) <-> In d (x_dims (cx_obj c))) /\ forall d, In d (x_dims y) -> dim_size y d = dim_size (cx_obj c) d) in
  (fits -> cx_new_like c y verify = Ok (CX y (cx_params c)) /\ xholds (CX y (cx_params c)) md) /\
  (~ fits -> cx_new_like c y verify = Raise EValue).
Proof.
  intros c md y verify H Hy fits. unfold cx_new_like. destruct (cx_check_like c y) as [[]|e] eqn:E; cbn [rbind].
  - apply (x_check_like_ok c md y H) in E. destruct E as [E1 E2]. destruct (verify && negb (sizes_eqb y (cx_obj c)))%bool eqn:B.
    + apply Bool.andb_true_iff in B. destruct B as [-> B]. split; [|reflexivity]. intros (_ & _ & V). specialize (V eq_refl). apply sizes_eqb_spec in V. rewrite V in B. discriminate.
    + split; [intros _; now apply x_init_same|]. intros X. elim X. repeat split; auto; rewrite H0 in B; cbn [andb] in B; apply Bool.negb_false_iff, sizes_eqb_spec in B; apply B; auto.
  - rewrite (x_check_like_err c md y e H E). split; [|reflexivity]. intros (F1 & F2 & _). assert (Q : cx_check_like c y = Ok tt) by (apply (x_check_like_ok c md y H); auto). congruence.
Qed.
(* Any function of the array that keeps the moment dimensions may be piped; with
   reordering they end up last. *)
Definition moments_last (x : xarr) (md : list sname) : Prop := exists rest, x_dims x = (rest ++ md)%list.
Lemma x_same_like c md x y : xholds c md -> x_same x y -> incl md (x_dims x) -> (forall d, In d md -> dim_size x d = dim_size (cx_obj c) d) ->
  incl md (x_dims y) /\ forall d, In d md -> dim_size y d = dim_size (cx_obj c) d.
Proof. intros H (S1 & S2 & _) I E. split; [intros d Hd; now apply S1, I|]. intros d Hd. rewrite <- S2 by auto. auto. Qed.
Theorem x_pipe_reorders : forall c md f x verify, xholds c md -> f (cx_obj c) = Ok x -> x_ok x ->
  incl md (x_dims x) -> (forall d, In d md -> dim_size x d = dim_size (cx_obj c) d) -> verify = false ->
  (cx_pipe c f false verify = Ok (CX x (cx_params c)) /\ xholds (CX x (cx_params c)) md) /\
  exists y, cx_pipe c f true verify = Ok (CX y (cx_params c)) /\ xholds (CX y (cx_params c)) md /\ x_same x y /\
    x_dims y = (filter (fun d => negb (smem d md)) (x_dims x) ++ md)%list.
Proof.
  intros c md f x verify H E Hx I S Hv. pose proof H as (Ho & Nm & L & Im & S2 & P). unfold cx_pipe, iter_dims. rewrite E, P. cbn [rbind xp_dims]. split.
  - destruct (x_new_like_exact c md x verify H Hx) as [N _]. rewrite <- P. apply N. subst verify. split; [exact I|]. split; [exact S|discriminate].
  - set (ds := (filter (fun d => negb (smem d md)) (x_dims x) ++ md)%list).
    assert (Ei : infix_dims (None :: map Some md) (x_dims x) = Ok ds).
    { unfold infix_dims. cbn [filter]. rewrite no_dots. cbn [List.length given flat_map]. fold (given (map Some md)). cbn [app]. rewrite given_some.
      rewrite (proj2 (sdup_false md) Nm), (proj2 (forallb_incl md (x_dims x)) I). cbn [orb negb]. f_equal. unfold ds. cbn [flat_map]. now rewrite flat_some. }
    destruct (x_transpose_ok _ _ _ Hx Ei) as (y & Ey & Dy). rewrite Ey. cbn [rbind]. destruct (x_transpose_same _ _ _ Hx Ey) as (Hy & Sy & _). exists y.
    destruct (x_same_like c md x y H Sy I S) as [Iy Sy']. destruct (x_new_like_exact c md y verify H Hy) as [N _]. rewrite <- P. destruct N as [N1 N2]; [subst verify; split; [exact Iy|]; split; [exact Sy'|discriminate]|].
    split; [exact N1|]. split; [exact N2|]. split; [exact Sy|exact Dy].
Qed.

(* transpose: moment dimensions last whatever is asked for; entries by name stay *)
Definition others (md : list sname) (dims : list (option sname)) : list sname := filter (fun d => negb (smem d md)) (given dims).
Definition dots (dims : list (option sname)) : nat := List.length (filter (fun o : option sname => match o with None => true | _ => false end) dims).
Definition transposable (c : cmdata) (md : list sname) (dims : list (option sname)) : Prop :=
  NoDup (others md dims) /\ incl (others md dims) (x_dims (cx_obj c)) /\
  (dots dims = 1 \/ dots dims = 0 /\ forall d, In d (x_dims (cx_obj c)) -> In d md \/ In d (given dims)).
Lemma given_others md dims : given (filter (fun o => match o with Some d => negb (smem d md) | None => true end) dims) = others md dims.
Proof.
  unfold others. induction dims as [|[d|] l IH]; [reflexivity| |exact IH]. cbn [filter]. change (given (Some d :: l)) with (d :: given l). cbn [filter].
  destruct (negb (smem d md)); [change (given (Some d :: ?r)) with (d :: given r); now rewrite <- IH|exact IH].
Qed.
Lemma dots_others md dims : dots (filter (fun o => match o with Some d => negb (smem d md) | None => true end) dims) = dots dims.
Proof. unfold dots. induction dims as [|[d|] l IH]; [reflexivity| |cbn; now rewrite IH]. cbn [filter]. destruct (negb _); [cbn [filter]|]; exact IH. Qed.
Theorem x_transpose_values : forall c md dims, xholds c md ->
  (transposable c md dims -> exists y, cx_transpose c dims = Ok (CX y (cx_params c)) /\ xholds (CX y (cx_params c)) md /\
     x_same (cx_obj c) y /\ moments_last y md /\ (dots dims = 0 -> x_dims y = (others md dims ++ md)%list)) /\
  (~ transposable c md dims -> cx_transpose c dims = Raise EValue).
Proof.
  intros c md dims H. pose proof H as (Ho & Nm & L & Im & S2 & P). assert (Ct : forall ds, cx_transpose c ds = cx_pipe c (x_transpose (filter (fun o => match o with Some d => negb (smem d md) | None => true end) ds ++ map Some md)) false false).
  { intros ds. unfold cx_transpose, iter_dims. rewrite P. reflexivity. }
  rewrite Ct. clear Ct. set (ds := (filter (fun o => match o with Some d => negb (smem d md) | None => true end) dims ++ map Some md)%list).
  assert (G : given ds = (others md dims ++ md)%list) by (unfold ds; now rewrite given_app, given_some, given_others).
  assert (D : dots ds = dots dims) by (unfold dots, ds; rewrite filter_app, no_dots, app_nil_r; apply dots_others).
  assert (Disj : forall d, In d (others md dims) -> ~ In d md) by (intros d Hd; unfold others in Hd; apply filter_In in Hd; destruct Hd as [_ Hd]; now apply Bool.negb_true_iff, smem_false in Hd).
  assert (A : transposable c md dims <-> exists r, infix_dims ds (x_dims (cx_obj c)) = Ok r).
  { split.
    - intros (T1 & T2 & T3). assert (Ng : NoDup (given ds)) by (rewrite G; apply NoDup_app_; auto).
      assert (Ig : incl (given ds) (x_dims (cx_obj c))) by (rewrite G; apply incl_app; auto). unfold infix_dims. fold (dots ds). rewrite D.
      rewrite (proj2 (sdup_false _) Ng), (proj2 (forallb_incl _ _) Ig). cbn [negb orb andb]. destruct T3 as [-> | [-> T3]]; [eauto|].
      assert (F : forallb (fun d => smem d (given ds)) (x_dims (cx_obj c)) = true); [|rewrite F; cbn [andb]; eauto]. apply forallb_incl. intros d Hd. rewrite G, in_app_iff. destruct (T3 d Hd) as [Q|Q]; [now right|].
      destruct (in_dec string_dec d md) as [M|M]; [now right|left]. unfold others. apply filter_In. split; [exact Q|]. now apply Bool.negb_true_iff, smem_false.
    - intros (r & E). destruct Ho as (Ho & N & Lo). destruct (infix_ok _ _ _ N E) as (Pr & Ng & Ig). rewrite G in Ng, Ig.
      split; [now apply NoDup_app_parts in Ng|]. split; [intros d Hd; apply Ig, in_app_iff; now left|]. unfold infix_dims in E. fold (dots ds) in E. rewrite D in E.
      destruct (dots dims) as [|[|k]]; [right|now left|discriminate]. split; [reflexivity|]. destruct (_ && _ && _)%bool eqn:B; [|discriminate]. apply Bool.andb_true_iff in B. destruct B as [B _]. apply Bool.andb_true_iff in B. destruct B as [_ B].
      apply forallb_incl in B. intros d Hd. apply B in Hd. rewrite G in Hd. apply in_app_iff in Hd. destruct Hd as [Hd|Hd]; [right|now left]. unfold others in Hd. now apply filter_In in Hd. }
  split.
  - intros T. apply A in T. destruct T as (r & E). destruct (x_transpose_ok ds (cx_obj c) r Ho E) as (y & Ey & Dy). destruct (x_transpose_same _ _ _ Ho Ey) as (Hy & Sy & _). exists y.
    destruct (x_same_like c md (cx_obj c) y H Sy Im (fun d _ => eq_refl)) as [Iy Sy'].
    destruct (x_pipe_reorders c md (x_transpose ds) y false H Ey Hy Iy Sy' eq_refl) as [[N1 N2] _]. split; [exact N1|]. split; [exact N2|]. split; [exact Sy|].
    rewrite Dy. unfold infix_dims in E. fold (dots ds) in E. rewrite D in E. unfold moments_last. rewrite Dy. destruct (dots dims) as [|[|k]]; [| |discriminate].
    + destruct (_ && _ && _)%bool; [|discriminate]. inversion E; subst r. rewrite G. split; [eauto|reflexivity].
    + destruct (_ || _)%bool; [discriminate|]. inversion E; subst r. split; [|discriminate]. unfold ds. rewrite flat_map_app. rewrite flat_some. eauto.
  - intros T. destruct (infix_dims ds (x_dims (cx_obj c))) as [r|e] eqn:E; [elim T; apply A; eauto|]. rewrite (infix_err _ _ _ E) in E. unfold cx_pipe, x_transpose. rewrite E. reflexivity.
Qed.

(* ---- indexing by position ---------------------------------------------------------------- *)

(* what a key takes from an axis of length n: one position, or a list of them *)
Definition picks (k : key) (n : nat) : res (nat + list nat) :=
  match k with
  | KInt z => rbind (index_int z n) (fun i => Ok (inl i))
  | KSlice a b s => rbind (slice_list n a b s) (fun l => Ok (inr l))
  | _ => Raise EIndex
  end.
Definition key_of (ks : list key) (x : xarr) (d : sname) : key := nth (position String.eqb d (x_dims x)) ks full.
(* y holds the entries of x at the picked positions *)
Definition picked (x y : xarr) (p : sname -> nat + list nat) : Prop :=
  x_dims y = filter (fun d => match p d with inl _ => false | inr _ => true end) (x_dims x) /\
  (forall d l, In d (x_dims x) -> p d = inr l -> dim_size y d = List.length l) /\
  forall env, x_inside y env ->
    x_at y env = x_at x (fun d => match p d with inl i => i | inr l => nth (env d) l 0 end) /\
    x_inside x (fun d => match p d with inl i => i | inr l => nth (env d) l 0 end).
Definition to_pick (s : sel) : nat + list nat := match s with SFix i => inl i | STake l => inr l | SNew => inl 0 end.
Lemma select_picks ks : forall s r, filter is_dots ks = [] -> existsb (fun k => match k with KNew => true | _ => false end) ks = false ->
  (select ks s = Ok r <-> List.length ks = List.length s /\ ~ In SNew r /\ Forall2 (fun kn q => picks (fst kn) (snd kn) = Ok (to_pick q)) (combine ks s) r).
Proof.
  induction ks as [|k ks IH]; intros s r D X.
  - cbn [select]. destruct s as [|n s]; cbn [combine List.length].
    + split; [intros E; inversion E; subst; repeat split; auto; constructor|]. intros (_ & _ & F). now inversion F.
    + split; [discriminate|]. intros [E _]. discriminate.
  - destruct k; cbn [filter is_dots existsb orb] in D, X; try discriminate; cbn [select]; (destruct s as [|n s]; cbn [combine List.length]; [split; [discriminate|intros [E _]; discriminate]|]).
    + rewrite rbind_ok. split.
      * intros (j & Ej & E). apply rbind_ok in E. destruct E as (r' & Er & E). inversion E; subst r. apply (IH s r' D X) in Er. destruct Er as (A1 & A2 & A3). split; [now f_equal|]. split; [intros [Q|Q]; [discriminate|auto]|]. constructor; [|exact A3]. cbn. now rewrite Ej.
      * intros (A1 & A2 & A3). inversion A3 as [|? q ? r' Hq F]; subst. cbn in Hq. destruct (index_int i n) as [j|] eqn:Ej; [|discriminate]. exists j. split; [reflexivity|]. apply rbind_ok. exists r'. split.
        -- apply (IH s r' D X). split; [now injection A1|]. split; [intros Q; apply A2; now right|exact F].
        -- cbn in Hq. destruct q as [i'|l|]; cbn in Hq; [congruence|discriminate|elim A2; now left].
    + rewrite rbind_ok. split.
      * intros (j & Ej & E). apply rbind_ok in E. destruct E as (r' & Er & E). inversion E; subst r. apply (IH s r' D X) in Er. destruct Er as (A1 & A2 & A3). split; [now f_equal|]. split; [intros [Q|Q]; [discriminate|auto]|]. constructor; [|exact A3]. cbn. now rewrite Ej.
      * intros (A1 & A2 & A3). inversion A3 as [|? q ? r' Hq F]; subst. cbn in Hq. destruct (slice_list n start stop step) as [j|] eqn:Ej; [|discriminate]. exists j. split; [reflexivity|]. apply rbind_ok. exists r'. split.
        -- apply (IH s r' D X). split; [now injection A1|]. split; [intros Q; apply A2; now right|exact F].
        -- cbn in Hq. destruct q as [i'|l|]; cbn in Hq; congruence.
Qed.
Definition pick_of (ks : list key) (x : xarr) (d : sname) : nat + list nat := match picks (key_of ks x d) (dim_size x d) with Ok q => q | Raise _ => inl 0 end.
Definition of_pick (q : nat + list nat) : sel := match q with inl i => SFix i | inr l => STake l end.
Definition is_list (q : nat + list nat) : bool := match q with inl _ => false | inr _ => true end.
Definition list_of (q : nat + list nat) : list nat := match q with inl _ => [] | inr l => l end.
Definition at_pick (q : nat + list nat) (i : nat) : nat := match q with inl j => j | inr l => nth i l 0 end.
Lemma kept_picks (p : sname -> nat + list nat) dims : kept_dims (map (fun d => of_pick (p d)) dims) dims = filter (fun d => is_list (p d)) dims.
Proof. induction dims as [|d dims IH]; [reflexivity|]. cbn [map filter]. destruct (p d); cbn [of_pick kept_dims is_list]; now rewrite IH. Qed.
Lemma shape_picks (p : sname -> nat + list nat) dims : sel_shape (map (fun d => of_pick (p d)) dims) = map (fun d => List.length (list_of (p d))) (filter (fun d => is_list (p d)) dims).
Proof. induction dims as [|d dims IH]; [reflexivity|]. cbn [map filter]. destruct (p d) eqn:E; cbn [of_pick sel_shape is_list map]; [exact IH|]. rewrite E, IH. reflexivity. Qed.
Lemma source_picks (p : sname -> nat + list nat) env dims : sel_source (map (fun d => of_pick (p d)) dims) (map env (filter (fun d => is_list (p d)) dims)) = map (fun d => at_pick (p d) (env d)) dims.
Proof. induction dims as [|d dims IH]; [reflexivity|]. cbn [map filter]. destruct (p d) eqn:E; cbn [of_pick sel_source is_list map at_pick]; [now rewrite IH|]. cbn [hd tl]. now rewrite IH. Qed.
Definition plain (ks : list key) : Prop := Forall (fun k => consumes k = true) ks.
Lemma plain_dots ks : plain ks -> filter is_dots ks = [] /\ existsb (fun k => match k with KNew => true | _ => false end) ks = false /\ consumed ks = List.length ks.
Proof. intros F. induction F as [|k ks H F (A & B & C)]; [repeat split|]. unfold consumed in *. destruct k; try discriminate; cbn; rewrite A, B, C; repeat split. Qed.
Lemma expand_plain n ks : plain ks -> List.length ks <= n -> expand_keys n ks = Ok (ks ++ repeat full (n - List.length ks))%list.
Proof.
  intros F L. destruct (plain_dots ks F) as (A & B & C). unfold expand_keys. rewrite A, C. cbn [List.length]. change (1 <? 0) with false. cbv iota. destruct (Nat.ltb_spec n (List.length ks)); [lia|].
  rewrite (exists_nodots ks A). cbv zeta iota. rewrite flat_map_app, flat_nodots by exact A. cbn [flat_map is_dots]. now rewrite app_nil_r.
Qed.
Lemma nth_keys ks n k : nth k (ks ++ repeat full (n - List.length ks)) full = nth k ks full.
Proof.
  destruct (le_lt_dec (List.length ks) k) as [H|H]; [|now apply app_nth1]. rewrite app_nth2 by exact H. rewrite (nth_overflow ks) by exact H.
  generalize (k - List.length ks) (n - List.length ks). intros j m. revert j. induction m as [|m IH]; intros [|j]; cbn; auto.
Qed.
(* One key for each of the first dimensions: every dimension is restricted as its key
   says; keys of the dimensions behind them count as full slices. *)
Theorem x_getitem_picks : forall ks x, x_ok x -> plain ks ->
  (List.length ks <= List.length (x_dims x) -> (forall d, In d (x_dims x) -> exists q, picks (key_of ks x d) (dim_size x d) = Ok q) ->
     exists y, x_getitem ks x = Ok y /\ x_ok y /\ picked x y (pick_of ks x)) /\
  ((List.length (x_dims x) < List.length ks \/ exists d e, In d (x_dims x) /\ picks (key_of ks x d) (dim_size x d) = Raise e) -> exists e, x_getitem ks x = Raise e).
Proof.
  intros ks x H F. pose proof H as (Ho & N & L). destruct (plain_dots ks F) as (A & B & C).
  assert (Nd : tndim (x_val x) = List.length (x_dims x)) by (unfold tndim; now rewrite L). set (n := List.length (x_dims x)) in *.
  assert (Ex : List.length ks <= n -> x_getitem ks x = rbind (select (ks ++ repeat full (n - List.length ks)) (x_shape x)) (fun r =>
     Ok (XA (kept_dims r (x_dims x)) (tabulate (sel_shape r) (fun idx => tget (x_val x) (sel_source r idx)))))).
  { intros Lk. unfold x_getitem. rewrite B, Nd, expand_plain by auto. reflexivity. }
  assert (Fe : plain (ks ++ repeat full (n - List.length ks))).
  { apply Forall_app. split; [exact F|]. apply Forall_forall. intros k Hk. apply repeat_spec in Hk. now subst k. }
  destruct (plain_dots _ Fe) as (A' & B' & _).
  assert (Le : List.length ks <= n -> List.length (ks ++ repeat full (n - List.length ks)) = List.length (x_shape x)) by (intros Lk; rewrite app_length, repeat_length; fold n in L; lia).
  assert (Cmb : List.length ks <= n -> combine (ks ++ repeat full (n - List.length ks)) (x_shape x) = map (fun d => (key_of ks x d, dim_size x d)) (x_dims x)).
  { intros Lk. specialize (Le Lk). rewrite map_named. fold n. apply nth_ext with (d := (full, 0)) (d' := (full, 0)).
    - rewrite combine_length, map_length, seq_length. fold n in L. lia.
    - intros k Hk. rewrite combine_length in Hk. rewrite combine_nth by exact Le. rewrite (nth_indep (map _ _) _ (key_of ks x (nth n (x_dims x) ""), dim_size x (nth n (x_dims x) ""))) by (rewrite map_length, seq_length; fold n in L; lia).
      rewrite (map_nth (fun a => (key_of ks x (nth a (x_dims x) ""), dim_size x (nth a (x_dims x) "")))). rewrite seq_nth by (fold n in L; lia). cbn [Nat.add]. rewrite nth_keys. unfold key_of, dim_size. rewrite pos_nth by (auto; fold n; fold n in L; lia). reflexivity. }
  split.
  - intros Lk Hp. rewrite Ex by exact Lk. set (p := pick_of ks x). set (r := map (fun d => of_pick (p d)) (x_dims x)).
    assert (Hpick : forall d, In d (x_dims x) -> picks (key_of ks x d) (dim_size x d) = Ok (p d)) by (intros d Hd; destruct (Hp d Hd) as (q & E); unfold p, pick_of; now rewrite E).
    assert (Es : select (ks ++ repeat full (n - List.length ks)) (x_shape x) = Ok r).
    { apply select_picks; [exact A'|exact B'|]. split; [now apply Le|]. split; [intros Q; apply in_map_iff in Q; destruct Q as (d & Q & _); destruct (p d); discriminate|].
      rewrite Cmb by exact Lk. unfold r. revert Hpick. generalize (x_dims x). intros l. induction l as [|d l IH]; intros Hq; cbn [map]; constructor; [|apply IH; intros; apply Hq; now right].
      cbn [fst snd]. rewrite Hq by now left. now destruct (p d). }
    rewrite Es. cbn [rbind]. eexists. split; [reflexivity|]. unfold r. rewrite kept_picks, shape_picks. set (ds := filter (fun d => is_list (p d)) (x_dims x)). set (y := XA _ _).
    assert (Hy : x_ok y).
    { split; [apply tabulate_ok|]. split; [now apply NoDup_filter|]. unfold y, x_shape. cbn [x_dims x_val tabulate tshape]. now rewrite map_length. }
    assert (Sy : forall d, In d ds -> dim_size y d = List.length (list_of (p d))).
    { intros d Hd. unfold dim_size, x_shape, y. cbn [x_dims x_val tabulate tshape]. destruct (pos_lt ds d Hd) as [P1 P2].
      rewrite (nth_indep _ 0 (List.length (list_of (p "")))) by (now rewrite map_length). rewrite (map_nth (fun d => List.length (list_of (p d)))). now rewrite P2. }
    split; [exact Hy|]. split; [reflexivity|]. split.
    + intros d l Hd E. rewrite Sy; [now rewrite E|]. unfold ds. apply filter_In. split; [exact Hd|]. now rewrite E.
    + intros env I. apply (x_inside_valid y env Hy) in I. pose proof I as V. unfold y, x_shape in V. cbn [x_dims x_val tabulate tshape] in V.
      assert (E : sel_source r (map env ds) = map (fun d => match p d with inl i => i | inr l => nth (env d) l 0 end) (x_dims x)) by apply source_picks.
      split.
      * unfold x_at, y. cbn [x_dims x_val]. rewrite tget_tabulate by exact V. f_equal. exact E.
      * apply (x_inside_valid x _ H). rewrite <- E. apply (sel_source_valid _ _ _ _ Es). unfold r. rewrite shape_picks. exact V.
  - intros [X|(d & e & Hd & Xe)].
    + exists EIndex. unfold x_getitem. rewrite B. unfold expand_keys. rewrite Nd, A, C. cbn [List.length]. change (1 <? 0) with false. cbv iota. destruct (Nat.ltb_spec n (List.length ks)); [reflexivity|lia].
    + destruct (le_lt_dec (List.length ks) n) as [Lk|Lk].
      * rewrite Ex by exact Lk. destruct (select _ (x_shape x)) as [r|e'] eqn:Es; [|cbn; eauto]. exfalso. apply select_picks in Es; [|exact A'|exact B']. destruct Es as (_ & _ & Q). rewrite Cmb in Q by exact Lk.
        assert (G : forall l, In d l -> forall r, Forall2 (fun kn q => picks (fst kn) (snd kn) = Ok (to_pick q)) (map (fun d => (key_of ks x d, dim_size x d)) l) r -> False).
        { induction l as [|d' l IH]; intros Hd' r' Q'; [destruct Hd'|]. cbn [map] in Q'. inversion Q' as [|? ? ? ? Q1 Q2]; subst. destruct Hd' as [->|Hd']; [cbn in Q1; congruence|eauto]. }
        exact (G _ Hd _ Q).
      * exists EIndex. unfold x_getitem. rewrite B. unfold expand_keys. rewrite Nd, A, C. cbn [List.length]. change (1 <? 0) with false. cbv iota. destruct (Nat.ltb_spec n (List.length ks)); [reflexivity|lia].
Qed.
(* Keys that leave the moment dimensions alone: the object holds the moment arrays at
   the picked positions, unchanged. *)
Theorem x_getitem_values : forall c md ks, xholds c md -> plain ks -> List.length ks <= List.length (x_dims (cx_obj c)) ->
  (forall d, In d md -> key_of ks (cx_obj c) d = full) ->
  (forall d, In d (x_dims (cx_obj c)) -> exists q, picks (key_of ks (cx_obj c) d) (dim_size (cx_obj c) d) = Ok q) ->
  exists c', cx_getitem c ks = Ok c' /\ xholds c' md /\ picked (cx_obj c) (cx_obj c') (pick_of ks (cx_obj c)) /\
    forall d, In d md -> pick_of ks (cx_obj c) d = inr (seq 0 (dim_size (cx_obj c) d)).
Proof.
  intros c md ks H F Lk K Q. pose proof H as (Ho & Nm & L & Im & S2 & P). destruct (x_getitem_picks ks (cx_obj c) Ho F) as [G _]. destruct (G Lk Q) as (y & Ey & Hy & Pk).
  assert (Pm : forall d, In d md -> pick_of ks (cx_obj c) d = inr (seq 0 (dim_size (cx_obj c) d))) by (intros d Hd; unfold pick_of; rewrite K by exact Hd; cbn [picks full]; rewrite slice_full; reflexivity).
  pose proof Pk as (D & S & _).
  assert (Iy : incl md (x_dims y)) by (intros d Hd; rewrite D; apply filter_In; split; [auto|]; now rewrite Pm).
  assert (Sy : forall d, In d md -> dim_size y d = dim_size (cx_obj c) d) by (intros d Hd; rewrite (S d _ (Im d Hd) (Pm d Hd)); apply seq_length).
  exists (CX y (cx_params c)). unfold cx_getitem. rewrite Ey. cbn [rbind]. rewrite (proj2 (x_check_like_ok c md y H)) by auto. cbn [rbind]. split; [reflexivity|]. split; [|auto]. now apply x_init_same.
Qed.
(* a key that drops a moment dimension is a ValueError *)
Theorem x_getitem_raises : forall c md ks d, xholds c md -> plain ks -> List.length ks <= List.length (x_dims (cx_obj c)) ->
  (forall d, In d (x_dims (cx_obj c)) -> exists q, picks (key_of ks (cx_obj c) d) (dim_size (cx_obj c) d) = Ok q) ->
  In d md -> (forall l, pick_of ks (cx_obj c) d = inr l -> List.length l <> dim_size (cx_obj c) d) -> cx_getitem c ks = Raise EValue.
Proof.
  intros c md ks d H F Lk Q Hd X. pose proof H as (Ho & Nm & L & Im & S2 & P). destruct (x_getitem_picks ks (cx_obj c) Ho F) as [G _]. destruct (G Lk Q) as (y & Ey & Hy & (D & S & _)).
  unfold cx_getitem. rewrite Ey. cbn [rbind]. destruct (cx_check_like c y) as [[]|e] eqn:E; cbn [rbind]; [|now rewrite (x_check_like_err c md y e H E)]. exfalso.
  apply (x_check_like_ok c md y H) in E. destruct E as [E1 E2]. specialize (E1 d Hd). rewrite D in E1. apply filter_In in E1. destruct E1 as [_ E1].
  destruct (pick_of ks (cx_obj c) d) as [i|l] eqn:Ep; [discriminate|]. apply (X l eq_refl). rewrite <- (S d l (Im d Hd) Ep). auto.
Qed.
Lemma mapR_ok_seq {T} (g : nat -> res T) n : (forall k, k < n -> exists c, g k = Ok c) ->
  exists l, mapR g (seq 0 n) = Ok l /\ List.length l = n /\ forall k, k < n -> exists c, nth_error l k = Some c /\ g k = Ok c.
Proof.
  intros G. assert (R : forall j a, a + j <= n -> exists l, mapR g (seq a j) = Ok l /\ List.length l = j /\ forall k, k < j -> exists c, nth_error l k = Some c /\ g (a + k) = Ok c).
  { induction j as [|j IH]; intros a Ha; [exists []; repeat split; intros; lia|]. destruct (G a ltac:(lia)) as (ca & Ea). destruct (IH (S a) ltac:(lia)) as (l & El & Ll & Nl). exists (ca :: l). cbn [seq mapR].
    rewrite Ea. cbn [rbind]. rewrite El. cbn [rbind]. split; [reflexivity|]. split; [cbn; lia|]. intros [|k] Hk; [exists ca; rewrite Nat.add_0_r; auto|]. destruct (Nl k ltac:(lia)) as (ck & N1 & N2). exists ck. split; [exact N1|]. now rewrite Nat.add_succ_r. }
  exact (R n 0 (le_n n)).
Qed.
(* iteration runs over the first dimension *)
Theorem x_iter_values : forall c md d0 rest, xholds c md -> x_dims (cx_obj c) = d0 :: rest -> ~ In d0 md ->
  exists l, cx_iter c = Ok l /\ List.length l = dim_size (cx_obj c) d0 /\
    forall k, k < dim_size (cx_obj c) d0 -> exists ck, nth_error l k = Some ck /\ xholds ck md /\ x_dims (cx_obj ck) = rest /\
      forall env, x_inside (cx_obj ck) env -> x_at (cx_obj ck) env = x_at (cx_obj c) (fun d => if String.eqb d d0 then k else env d).
Proof.
  intros c md d0 rest H Ed X. pose proof H as (Ho & Nm & L & Im & S2 & P). pose proof Ho as (Ht & N & Ls). unfold cx_iter. assert (Pn : xp_ndim (cx_params c) = Some (Z.of_nat (List.length md))) by (now rewrite P). rewrite Pn.
  assert (Nd : tndim (x_val (cx_obj c)) = S (List.length rest)) by (unfold tndim; fold (x_shape (cx_obj c)); rewrite <- Ls, Ed; reflexivity). rewrite Nd.
  assert (Lr : List.length md <= List.length rest).
  { apply NoDup_incl_length; [exact Nm|]. intros d Hd. specialize (Im d Hd). rewrite Ed in Im. destruct Im as [<-|]; [contradiction|auto]. }
  destruct (Z.leb_spec (Z.of_nat (S (List.length rest))) (Z.of_nat (List.length md))); [lia|].
  assert (D0 : nth 0 (x_shape (cx_obj c)) 0 = dim_size (cx_obj c) d0) by (unfold dim_size; rewrite Ed; cbn [position]; rewrite String.eqb_refl; reflexivity). rewrite D0.
  assert (G : forall k, k < dim_size (cx_obj c) d0 -> exists ck, rbind (x_getitem [KInt (Z.of_nat k)] (cx_obj c)) (fun x => cx_new_like c x false) = Ok ck /\ xholds ck md /\ x_dims (cx_obj ck) = rest /\
      forall env, x_inside (cx_obj ck) env -> x_at (cx_obj ck) env = x_at (cx_obj c) (fun d => if String.eqb d d0 then k else env d)).
  { intros k Hk. set (ks := [KInt (Z.of_nat k)]).
    assert (K0 : picks (key_of ks (cx_obj c) d0) (dim_size (cx_obj c) d0) = Ok (inl k)).
    { unfold key_of. rewrite Ed. cbn [position]. rewrite String.eqb_refl. cbn [nth ks picks]. unfold index_int. destruct (Z.ltb_spec (Z.of_nat k) 0); [lia|]. cbv zeta.
      destruct (Z.ltb_spec (Z.of_nat k) 0); [lia|]. destruct (Z.leb_spec (Z.of_nat (dim_size (cx_obj c) d0)) (Z.of_nat k)); [lia|]. cbn [orb rbind]. now rewrite Nat2Z.id. }
    assert (K1 : forall d, In d rest -> key_of ks (cx_obj c) d = full /\ d <> d0).
    { intros d Hd. rewrite Ed in N. inversion N; subst. assert (Hne : d <> d0) by (intros ->; contradiction). split; [|exact Hne]. unfold key_of. rewrite Ed. cbn [position].
      destruct (String.eqb_spec d d0) as [E'|E']; [contradiction|]. unfold ks. cbn [nth]. destruct (position String.eqb d rest); reflexivity. }
    assert (Q : forall d, In d (x_dims (cx_obj c)) -> exists q, picks (key_of ks (cx_obj c) d) (dim_size (cx_obj c) d) = Ok q).
    { intros d Hd. rewrite Ed in Hd. destruct Hd as [<-|Hd]; [eauto|]. rewrite (proj1 (K1 d Hd)). cbn [picks full]. rewrite slice_full. cbn. eauto. }
    assert (Fk : plain ks) by (repeat constructor). assert (Lk : List.length ks <= List.length (x_dims (cx_obj c))) by (rewrite Ed; cbn; lia).
    destruct (x_getitem_picks ks (cx_obj c) Ho Fk) as [G _]. destruct (G Lk Q) as (y & Ey & Hy & (D & S & V)). rewrite Ey. cbn [rbind].
    assert (P0 : pick_of ks (cx_obj c) d0 = inl k) by (unfold pick_of; now rewrite K0).
    assert (P1 : forall d, In d rest -> pick_of ks (cx_obj c) d = inr (seq 0 (dim_size (cx_obj c) d))) by (intros d Hd; unfold pick_of; rewrite (proj1 (K1 d Hd)); cbn [picks full]; rewrite slice_full; reflexivity).
    assert (Dy : x_dims y = rest).
    { rewrite D, Ed. cbn [filter]. rewrite P0. clear -P1. induction rest as [|d rest IH]; [reflexivity|]. cbn [filter]. rewrite P1 by now left. f_equal. apply IH. intros; apply P1; now right. }
    assert (Sy : forall d, In d rest -> dim_size y d = dim_size (cx_obj c) d) by (intros d Hd; rewrite (S d _ ltac:(rewrite Ed; now right) (P1 d Hd)); apply seq_length).
    assert (Mr : incl md rest) by (intros d Hd; specialize (Im d Hd); rewrite Ed in Im; destruct Im as [<-|]; [contradiction|auto]).
    destruct (x_new_like_exact c md y false H Hy) as [Nl _]. destruct Nl as [N1 N2]; [split; [rewrite Dy; exact Mr|split; [auto|discriminate]]|]. rewrite N1. eexists. split; [reflexivity|]. split; [exact N2|]. split; [exact Dy|].
    cbn [cx_obj]. intros env I. rewrite (proj1 (V env I)). unfold x_at. f_equal. rewrite Ed. cbn [map]. rewrite P0, String.eqb_refl. f_equal. apply map_ext_in. intros d Hd. rewrite (P1 d Hd).
    destruct (String.eqb_spec d d0) as [E'|E']; [destruct (proj2 (K1 d Hd) E')|]. rewrite seq_nth; [reflexivity|]. rewrite <- Sy by exact Hd. apply I. now rewrite Dy. }
  clear -G. set (n := dim_size (cx_obj c) d0) in *. set (g := fun k => rbind (x_getitem [KInt (Z.of_nat k)] (cx_obj c)) (fun x => cx_new_like c x false)) in *.
  destruct (mapR_ok_seq g n) as (l & El & Ll & Fl). { intros k Hk. destruct (G k Hk) as (ck & E & _). eauto. }
  exists l. split; [exact El|]. split; [exact Ll|]. intros k Hk. destruct (G k Hk) as (ck & E & R). exists ck. split; [|exact R]. destruct (Fl k Hk) as (c' & E1 & E2). rewrite E1. f_equal. unfold g in E2. congruence.
Qed.
(* a moment dimension first, or no other dimension: ValueError *)
Theorem x_iter_raises : forall c md d0 rest, xholds c md -> x_dims (cx_obj c) = d0 :: rest -> In d0 md -> cx_iter c = Raise EValue.
Proof.
  intros c md d0 rest H Ed X. pose proof H as (Ho & Nm & L & Im & S2 & P). pose proof Ho as (Ht & N & Ls). unfold cx_iter.
  assert (Pn : xp_ndim (cx_params c) = Some (Z.of_nat (List.length md))) by (now rewrite P). rewrite Pn. destruct (_ <=? _)%Z; [reflexivity|].
  assert (D0 : nth 0 (x_shape (cx_obj c)) 0 = dim_size (cx_obj c) d0) by (unfold dim_size; rewrite Ed; cbn [position]; rewrite String.eqb_refl; reflexivity). rewrite D0.
  pose proof (proj1 (Forall_forall _ _) S2 d0 X) as S0. cbv beta in S0. destruct (dim_size (cx_obj c) d0) as [|n] eqn:En; [lia|]. cbn [seq mapR].
  assert (E : rbind (x_getitem [KInt (Z.of_nat 0)] (cx_obj c)) (fun x => cx_new_like c x false) = Raise EValue); [|now rewrite E]. set (ks := [KInt (Z.of_nat 0)]).
  assert (K0 : picks (key_of ks (cx_obj c) d0) (dim_size (cx_obj c) d0) = Ok (inl 0)) by (rewrite En; unfold key_of; rewrite Ed; cbn [position]; rewrite String.eqb_refl; reflexivity).
  assert (Fk : plain ks) by (repeat constructor). assert (Lk : List.length ks <= List.length (x_dims (cx_obj c))) by (rewrite Ed; cbn; lia).
  assert (Q : forall d, In d (x_dims (cx_obj c)) -> exists q, picks (key_of ks (cx_obj c) d) (dim_size (cx_obj c) d) = Ok q).
  { intros d Hd. destruct (string_dec d d0) as [->|Hne]; [eauto|]. unfold key_of. rewrite Ed. cbn [position]. destruct (String.eqb_spec d d0); [contradiction|]. unfold ks. cbn [nth].
    destruct (position String.eqb d rest); cbn [picks full]; unfold full; cbn [picks]; rewrite slice_full; cbn; eauto. }
  destruct (x_getitem_picks ks (cx_obj c) Ho Fk) as [G _]. destruct (G Lk Q) as (y & Ey & Hy & (D & S & V)). rewrite Ey. cbn [rbind].
  destruct (x_new_like_exact c md y false H Hy) as [_ Nl]. apply Nl. intros (I & _). specialize (I d0 X). rewrite D in I. apply filter_In in I. destruct I as [_ I]. unfold pick_of in I. rewrite K0 in I. discriminate.
Qed.

(* ---- rename ------------------------------------------------------------------------------- *)

(* Renaming the other dimensions to distinct names keeps every entry. *)
Lemma pos_map (f : sname -> sname) l d : (forall a b, In a l -> In b l -> f a = f b -> a = b) -> In d l -> position String.eqb (f d) (map f l) = position String.eqb d l.
Proof.
  induction l as [|x l IH]; intros J H; [destruct H|]. cbn [map position]. destruct (String.eqb_spec (f d) (f x)) as [E|E].
  - rewrite (J d x H (or_introl eq_refl) E), String.eqb_refl. reflexivity.
  - destruct (String.eqb_spec d x) as [->|E']; [congruence|]. f_equal. apply IH; [intros; apply J; try (now right); auto|]. destruct H as [->|H]; [congruence|exact H].
Qed.
Theorem rename_values : forall c md f, xholds c md -> (forall d, In d md -> f d = d) ->
  (forall a b, In a (x_dims (cx_obj c)) -> In b (x_dims (cx_obj c)) -> f a = f b -> a = b) ->
  xholds (cx_rename f c) md /\ x_dims (cx_obj (cx_rename f c)) = map f (x_dims (cx_obj c)) /\
  (forall d, In d (x_dims (cx_obj c)) -> dim_size (cx_obj (cx_rename f c)) (f d) = dim_size (cx_obj c) d) /\
  forall env, x_at (cx_obj (cx_rename f c)) env = x_at (cx_obj c) (fun d => env (f d)).
Proof.
  intros c md f H Fm J. pose proof H as ((Ht & N & Ls) & Nm & L & Im & S2 & P).
  assert (Sz : forall d, In d (x_dims (cx_obj c)) -> dim_size (cx_obj (cx_rename f c)) (f d) = dim_size (cx_obj c) d) by (intros d Hd; unfold dim_size, cx_rename, x_rename, x_shape; cbn [cx_obj x_dims x_val]; now rewrite pos_map).
  split; [|split; [reflexivity|split; [exact Sz|]]].
  - split; [split; [exact Ht|split; [|unfold cx_rename, x_rename, x_shape; cbn [cx_obj x_dims x_val]; now rewrite map_length]]|].
    + cbn [cx_rename cx_obj x_rename x_dims]. now apply NoDup_map_in.
    + split; [exact Nm|]. split; [exact L|]. split; [intros d Hd; cbn [cx_rename cx_obj x_rename x_dims]; apply in_map_iff; exists d; split; auto|]. split; [|exact P].
      rewrite Forall_forall in *. intros d Hd. specialize (S2 d Hd). cbv beta in S2. rewrite <- (Fm d Hd), Sz by auto. exact S2.
  - intros env. unfold x_at, cx_rename, x_rename. cbn [cx_obj x_dims x_val]. now rewrite map_map.
Qed.
(* renaming a moment dimension leaves the stored name behind: no moment shape *)
Definition xval2 : xarr := XA ["x"; "mom"] (Tensor [3; 2] (map (fun k => qz (Z.of_nat k)) (seq 1 6))).
Definition xmp : xparams := XP (Some 1%Z) (Some ["mom"]).
Theorem rename_moment_refuted : exists c f, xholds c ["mom"] /\ (forall a b, In a (x_dims (cx_obj c)) -> In b (x_dims (cx_obj c)) -> f a = f b -> a = b) /\
  x_dims (cx_obj (cx_rename f c)) = ["x"; "m"] /\ exists e, cx_mom_shape (cx_rename f c) = Raise e.
Proof.
  exists (CX xval2 xmp), (fun d => if String.eqb d "mom" then "m" else d). split.
  - repeat split; cbn; auto; try (repeat constructor; cbn; intuition (discriminate || lia)). intros d [<-|[]]. cbn. auto.
  - split; [|split; [reflexivity|eexists; reflexivity]]. intros a b [<-|[<-|[]]] [<-|[<-|[]]]; cbn; congruence.
Qed.

(* ---- to_array -------------------------------------------------------------------------------- *)

(* With the moment dimensions last, in order, the array object holds the same moment
   arrays. *)
Theorem to_array_values : forall c md vd, xholds c md -> x_dims (cx_obj c) = (vd ++ md)%list ->
  exists a, cx_to_array c = Ok a /\ c_obj a = x_val (cx_obj c) /\ holds a (map (dim_size (cx_obj c)) vd) (map (dim_size (cx_obj c)) md) /\
    forall env, mom_entry a (map env vd) (map env md) = x_at (cx_obj c) env.
Proof.
  intros c md vd H E. pose proof H as (Ho & Nm & L & Im & S2 & P). unfold cx_to_array. rewrite P.
  assert (Ea : x_to_array (XP (Some (Z.of_nat (List.length md))) (Some md)) None = Ok (AP (Some (Z.of_nat (List.length md))) (Some (axes_last (List.length md))))) by (destruct L as [-> | ->]; reflexivity).
  rewrite Ea. cbn [rbind]. eexists. split; [reflexivity|]. split; [reflexivity|]. split.
  - split; [apply Ho|]. unfold c_shape. cbn [c_obj c_params]. fold (x_shape (cx_obj c)). rewrite (shape_named _ Ho), E, map_app, map_length. repeat split; auto. clear -S2. induction S2; cbn; constructor; auto.
  - intros env. unfold mom_entry, x_at. cbn [c_obj]. now rewrite E, map_app.
Qed.
(* otherwise the last axis is taken for the moments, without an error *)
Definition mom_first : xarr := XA ["mom"; "x"] (Tensor [2; 3] (map (fun k => qz (Z.of_nat k)) (seq 1 6))).
Theorem to_array_order_refuted : exists c a, xholds c ["mom"] /\ cx_to_array c = Ok a /\ holds a [2] [3] /\
  mom_entry a [0] [1] <> x_at (cx_obj c) (fun d => if String.eqb d "x" then 0 else 1).
Proof.
  exists (CX mom_first xmp). eexists. split; [|split; [reflexivity|split]].
  - repeat split; cbn; auto; try (repeat constructor; cbn; intuition (discriminate || lia)). intros d [<-|[]]. cbn. auto.
  - repeat split; cbn; auto; repeat constructor; lia.
  - vm_compute. discriminate.
Qed.

(* ---- examples ---------------------------------------------------------------------------- *)

Definition cube : xarr := XA ["mom"; "x"; "y"] (Tensor [2; 3; 2] (map (fun k => qz (Z.of_nat k)) (seq 0 12))).
Definition at3 (m i j : nat) (d : sname) : nat := if String.eqb d "mom" then m else if String.eqb d "x" then i else j.
Lemma cube_holds : xholds (CX cube xmp) ["mom"].
Proof. repeat split; cbn; auto; try (repeat constructor; cbn; intuition (discriminate || lia)). intros d [<-|[]]. cbn. auto. Qed.
Example x_init_ex :
  (exists c, cx_init MPNone None None (Some (DStr "mom")) cube = Ok c /\ cx_obj c = cube /\ cx_params c = xmp) /\
  (exists c, cx_init MPNone None (Some (IInt 0)) None cube = Ok c /\ cx_params c = xmp) /\
  (exists c, cx_init MPNone (Some 2%Z) None None cube = Ok c /\ cx_params c = XP (Some 2%Z) (Some ["x"; "y"])) /\
  cx_init MPNone None None (Some (DStr "z")) cube = Raise EValue.
Proof. repeat split; try (eexists; repeat split; reflexivity); reflexivity. Qed.
Example x_transpose_ex : xholds (CX cube xmp) ["mom"] /\ transposable (CX cube xmp) ["mom"] [Some "y"; Some "mom"; Some "x"] /\ transposable (CX cube xmp) ["mom"] [Some "y"; None] /\
  (exists y, cx_transpose (CX cube xmp) [Some "y"; Some "mom"; Some "x"] = Ok (CX y xmp) /\ x_dims y = ["y"; "x"; "mom"] /\ x_shape y = [2; 3; 2] /\ x_at y (at3 1 2 0) = x_at cube (at3 1 2 0) /\ x_at y (at3 1 2 0) = qz 10) /\
  (exists y, cx_transpose (CX cube xmp) [Some "y"; None] = Ok (CX y xmp) /\ x_dims y = ["y"; "x"; "mom"]) /\
  cx_transpose (CX cube xmp) [Some "y"] = Raise EValue /\ cx_transpose (CX cube xmp) [Some "z"; None] = Raise EValue.
Proof.
  split; [exact cube_holds|]. split; [split; [|split; [|right; split; [reflexivity|]]]|split; [split; [|split; [|left; reflexivity]]|]].
  - repeat constructor; cbn; intuition discriminate.
  - intros d [<-|[<-|[]]]; cbn; auto.
  - intros d [<-|[<-|[<-|[]]]]; cbn; auto.
  - repeat constructor; cbn; intuition discriminate.
  - intros d [<-|[]]; cbn; auto.
  - repeat split; try (eexists; repeat split; reflexivity); reflexivity.
Qed.
Example x_getitem_ex : plain [full; KInt (-1); KSlice None None (Some (-1)%Z)] /\
  (forall d, In d ["mom"] -> key_of [full; KInt (-1); KSlice None None (Some (-1)%Z)] cube d = full) /\
  (forall d, In d (x_dims cube) -> exists q, picks (key_of [full; KInt (-1); KSlice None None (Some (-1)%Z)] cube d) (dim_size cube d) = Ok q) /\
  (exists c', cx_getitem (CX cube xmp) [full; KInt (-1); KSlice None None (Some (-1)%Z)] = Ok c' /\ x_dims (cx_obj c') = ["mom"; "y"] /\ x_at (cx_obj c') (at3 1 0 0) = x_at cube (at3 1 2 1)) /\
  cx_getitem (CX cube xmp) [KInt 0] = Raise EValue /\ cx_getitem (CX cube xmp) [KSlice None (Some 1%Z) None] = Raise EValue.
Proof.
  split; [repeat constructor|]. split; [intros d [<-|[]]; reflexivity|]. split; [intros d [<-|[<-|[<-|[]]]]; eexists; reflexivity|].
  repeat split; try (eexists; repeat split; reflexivity); reflexivity.
Qed.
Definition rows_first : xarr := XA ["x"; "mom"; "y"] (Tensor [3; 2; 2] (map (fun k => qz (Z.of_nat k)) (seq 0 12))).
Example x_iter_ex : xholds (CX rows_first xmp) ["mom"] /\
  (exists a b c, cx_iter (CX rows_first xmp) = Ok [a; b; c] /\ x_dims (cx_obj b) = ["mom"; "y"] /\ x_at (cx_obj b) (at3 1 0 0) = qz 6) /\
  cx_iter (CX cube xmp) = Raise EValue.
Proof.
  split; [|split; [do 3 eexists; repeat split; reflexivity|reflexivity]].
  repeat split; cbn; auto; try (repeat constructor; cbn; intuition (discriminate || lia)). intros d [<-|[]]. cbn. auto.
Qed.
Example rename_ex : let f d := if String.eqb d "x" then "z" else d in
  (forall d, In d ["mom"] -> f d = d) /\ (forall a b, In a (x_dims cube) -> In b (x_dims cube) -> f a = f b -> a = b) /\
  x_at (cx_obj (cx_rename f (CX cube xmp))) (fun d => if String.eqb d "z" then 2 else 1) = x_at cube (at3 1 2 1).
Proof. cbv zeta. split; [intros d [<-|[]]; reflexivity|]. split; [intros a b [<-|[<-|[<-|[]]]] [<-|[<-|[<-|[]]]]; cbn; congruence|reflexivity]. Qed.
Example to_array_ex : xholds (CX xval2 xmp) ["mom"] /\ x_dims xval2 = (["x"] ++ ["mom"])%list /\
  exists a, cx_to_array (CX xval2 xmp) = Ok a /\ holds a [3] [2] /\ mom_entry a [2] [1] = qz 6.
Proof.
  split; [|split; [reflexivity|eexists; split; [reflexivity|split; [|reflexivity]]; repeat split; cbn; auto; repeat constructor; lia]].
  repeat split; cbn; auto; try (repeat constructor; cbn; intuition (discriminate || lia)). intros d [<-|[]]. cbn. auto.
Qed.
