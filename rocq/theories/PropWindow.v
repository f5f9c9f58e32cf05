(* construct_rolling_window_array shows the windows of the data (C125). *)
From Coq Require Import String DecimalString DecimalNat DecimalFacts Permutation.
From Verif Require Import Base BaseLemmas Checks ModelPush ModelKernels ModelIndex ModelAxes ModelState ModelParams ModelWrap ModelNd ModelLabel ModelWindow Spec SpecAxes SpecNd SpecLabel SpecWindow
  ProofAxes ProofArrays ProofNd PropAxes PropParams PropWrap PropLabelled PropNd ProofLabel ProofWindow.
Local Open Scope string_scope.
Local Open Scope nat_scope.

Lemma same_length {X Y} (R : X -> Y -> Prop) l l' : Forall2 R l l' -> List.length l = List.length l'.
Proof. induction 1; cbn; congruence. Qed.
Lemma stands_list {T} n (a : scalar_or_seq T) l : stands_for n a l -> List.length l = n -> per_dim n a = l.
Proof. intros [->|(v & -> & ->)] H; reflexivity. Qed.
Lemma selects_ok p axis dim dims ds : NoDup dims -> selects p axis dim dims ds ->
  exists axes, select_axis_dim_mult p (XArr dims) axis dim Missing Missing false = Ok (axes, ds).
Proof. intros N (axes & H1 & H2 & H3). exists axes. apply select_mult_exact; [exact N|]. auto. Qed.
Lemma l_named_of {T} (sz : sname -> nat) (g : lgrid T) : grid_ok (lg_val g) -> gshape (lg_val g) = map sz (lg_dims g) -> l_named sz (lg_dims g) g.
Proof. intros H1 H2. split; [reflexivity|]. now split. Qed.
Lemma rolls_back rs : map (fun '(((((d, w), c), s), m)) => Roll d w c s m)
  (combine (combine (combine (combine (map r_dim rs) (map r_win rs)) (map r_center rs)) (map r_stride rs)) (map r_name rs)) = rs.
Proof. rewrite !combine_maps, map_map. rewrite <- (map_id rs) at 2. apply map_ext. now intros []. Qed.

Lemma rolls_columns (ds : list sname) : forall (ws : list Z) (cs : list bool) (ss : list Z) (names : list sname),
  List.length ws = List.length ds -> List.length cs = List.length ds -> List.length ss = List.length ds -> List.length names = List.length ds ->
  let rs := map (fun '(((((d, w), c), s), m)) => Roll d w c s m) (combine (combine (combine (combine ds ws) cs) ss) names) in
  map r_dim rs = ds /\ map r_win rs = ws.
Proof.
  induction ds as [|d ds IH]; intros [|w ws] [|c cs] [|s ss] [|n ns] L1 L2 L3 L4; try discriminate; [now split|].
  cbn in *. destruct (IH ws cs ss ns) as [I1 I2]; try lia. split; f_equal; assumption.
Qed.

(* every window of a labelled array shows the entries around its position *)
Theorem windows_by_name : forall {T} (fill : T) p window axis dim center stride window_dim rs sz (g : lgrid T),
  grid_ok (lg_val g) -> gshape (lg_val g) = map sz (lg_dims g) -> NoDup (lg_dims g) ->
  selects p axis dim (lg_dims g) (map r_dim rs) -> NoDup (map r_dim rs) ->
  stands_for (List.length rs) window (map r_win rs) -> stands_for (List.length rs) center (map r_center rs) ->
  stands_for (List.length rs) stride (map r_stride rs) -> window_names window_dim (map r_dim rs) (map r_name rs) ->
  NoDup (map r_name rs) -> (forall n, In n (map r_name rs) -> ~ In n (lg_dims g)) ->
  Forall (fun r => (0 < r_win r)%Z /\ (r_stride r <> 0)%Z /\ 0 < sz (r_dim r)) rs ->
  exists out, construct_windows_labelled fill p window axis dim center stride window_dim g = Ok out /\ shows_windows fill rs sz g out.
Proof.
  intros T fill p window axis dim center stride wd rs sz g Hg Sg Nx HS Nd W C S N Nn Fr HF. unfold construct_windows_labelled.
  destruct (selects_ok p axis dim _ _ Nx HS) as (axes & ->). cbn [rbind].
  assert (Id : incl (map r_dim rs) (lg_dims g)).
  { destruct HS as (ax & F & _). clear - F. induction F as [|a d ax ds H F IH]; intros n Hn; [destruct Hn|]. destruct Hn as [<-|Hn]; [now apply nth_error_In in H|now apply IH]. }
  rewrite map_length. rewrite (stands_list _ _ _ W), (stands_list _ _ _ C), (stands_list _ _ _ S) by now rewrite map_length.
  assert (EN : match wd with None => map (append "rolling_") (map r_dim rs) | Some (Scalar s) => [s] | Some (Seq l) => l end = map r_name rs).
  { destruct N as [[-> E]|[->|(s & -> & E)]]; congruence. }
  rewrite EN. rewrite !map_length, !Nat.eqb_refl. cbn [andb negb]. rewrite rolls_back, dict_zip_id by exact Nd.
  rewrite Forall_forall in HF. replace (existsb _ rs) with false.
  2:{ symmetry. apply not_true_iff_false. intros H. apply existsb_exists in H. destruct H as (r & Hr & H). destruct (HF r Hr) as (H1 & _). apply Z.leb_le in H. lia. }
  apply (windows_shown fill rs (lg_dims g)); auto.
  - apply Forall_forall. intros r Hr. now apply HF.
  - apply Forall_forall. intros r Hr. now apply HF.
  - now apply l_named_of.
  - intros n Hn. apply in_map_iff in Hn. destruct Hn as (r & <- & Hr). now apply HF.
Qed.

(* what is refused *)
Theorem windows_refused : forall {T} (fill : T) p window axis dim center stride window_dim ds (g : lgrid T),
  NoDup (lg_dims g) -> selects p axis dim (lg_dims g) ds -> NoDup ds ->
  (forall l, window = Seq l -> List.length l <> List.length ds -> construct_windows_labelled fill p window axis dim center stride window_dim g = Raise EValue) /\
  (forall l, center = Seq l -> List.length l <> List.length ds -> construct_windows_labelled fill p window axis dim center stride window_dim g = Raise EValue) /\
  (forall l, stride = Seq l -> List.length l <> List.length ds -> construct_windows_labelled fill p window axis dim center stride window_dim g = Raise EValue) /\
  (forall l, (window_dim = Some (Seq l) \/ exists s, window_dim = Some (Scalar s) /\ l = [s]) -> List.length l <> List.length ds ->
     construct_windows_labelled fill p window axis dim center stride window_dim g = Raise EValue) /\
  (forall ws, stands_for (List.length ds) window ws -> Exists (fun w => (w <= 0)%Z) ws ->
     construct_windows_labelled fill p window axis dim center stride window_dim g = Raise EValue).
Proof.
  intros T fill p window axis dim center stride wd ds g Nx HS Nd. destruct (selects_ok p axis dim _ _ Nx HS) as (axes & E).
  unfold construct_windows_labelled. rewrite E. cbn [rbind]. clear E.
  repeat split.
  - intros l -> L. cbn [per_dim]. apply Nat.eqb_neq in L. rewrite L. reflexivity.
  - intros l -> L. cbn [per_dim]. apply Nat.eqb_neq in L. rewrite L. rewrite andb_false_r. reflexivity.
  - intros l -> L. cbn [per_dim]. apply Nat.eqb_neq in L. rewrite L. rewrite andb_false_r. reflexivity.
  - intros l H L. assert (Q : match wd with None => map (append "rolling_") ds | Some (Scalar s) => [s] | Some (Seq l) => l end = l) by (destruct H as [->|(s & -> & ->)]; reflexivity).
    rewrite Q. apply Nat.eqb_neq in L. rewrite L. rewrite andb_false_r. reflexivity.
  - intros ws W X. set (names := match wd with None => map (append "rolling_") ds | Some (Scalar s) => [s] | Some (Seq l) => l end).
    set (cs := per_dim (List.length ds) center). set (ss := per_dim (List.length ds) stride).
    destruct (Nat.eqb (List.length (per_dim (List.length ds) window)) (List.length ds)) eqn:L1; [|reflexivity]. apply Nat.eqb_eq in L1.
    assert (EW : per_dim (List.length ds) window = ws) by (destruct W as [->|(v & -> & ->)]; reflexivity). rewrite EW in *.
    destruct (Nat.eqb (List.length cs) (List.length ds)) eqn:L2; [|reflexivity]. destruct (Nat.eqb (List.length ss) (List.length ds)) eqn:L3; [|reflexivity].
    destruct (Nat.eqb (List.length names) (List.length ds)) eqn:L4; [|reflexivity]. apply Nat.eqb_eq in L2, L3, L4. cbn [andb negb].
    set (rs := map (fun '(((((d, w), c), s), m)) => Roll d w c s m) (combine (combine (combine (combine ds ws) cs) ss) names)).
    assert (Q : map r_dim rs = ds /\ map r_win rs = ws).
    { now apply rolls_columns. }
    destruct Q as [Q1 Q2]. rewrite dict_zip_id by now rewrite Q1. replace (existsb _ rs) with true; [reflexivity|]. symmetry. apply existsb_exists.
    rewrite <- Q2 in X. apply Exists_exists in X. destruct X as (w & Hw & X). apply in_map_iff in Hw. destruct Hw as (r & <- & Hr). exists r. split; [exact Hr|]. now apply Z.leb_le.
Qed.

(* a name given to two window dimensions is refused *)
Theorem windows_name_taken : forall {T} (fill : T) p window axis dim center stride window_dim rs sz (g : lgrid T),
  grid_ok (lg_val g) -> gshape (lg_val g) = map sz (lg_dims g) -> NoDup (lg_dims g) ->
  selects p axis dim (lg_dims g) (map r_dim rs) -> NoDup (map r_dim rs) ->
  stands_for (List.length rs) window (map r_win rs) -> stands_for (List.length rs) center (map r_center rs) ->
  stands_for (List.length rs) stride (map r_stride rs) -> window_names window_dim (map r_dim rs) (map r_name rs) ->
  ~ NoDup (map r_name rs) -> construct_windows_labelled fill p window axis dim center stride window_dim g = Raise EValue.
Proof.
  intros T fill p window axis dim center stride wd rs sz g Hg Sg Nx HS Nd W C S N Nn. unfold construct_windows_labelled.
  destruct (selects_ok p axis dim _ _ Nx HS) as (axes & ->). cbn [rbind].
  rewrite map_length. rewrite (stands_list _ _ _ W), (stands_list _ _ _ C), (stands_list _ _ _ S) by now rewrite map_length.
  assert (EN : match wd with None => map (append "rolling_") (map r_dim rs) | Some (Scalar s) => [s] | Some (Seq l) => l end = map r_name rs).
  { destruct N as [[-> E]|[->|(s & -> & E)]]; congruence. }
  rewrite EN. rewrite !map_length, !Nat.eqb_refl. cbn [andb negb]. rewrite rolls_back, dict_zip_id by exact Nd.
  destruct (existsb _ rs); [reflexivity|].
  assert (I : forall all, infix_dims (map Some (map r_name rs) ++ [None]) all = Raise EValue).
  { intros all. unfold infix_dims. assert (G : given (map Some (map r_name rs) ++ [None]) = map r_name rs) by (unfold given; rewrite flat_map_app; cbn; rewrite app_nil_r; apply given_some).
    rewrite G, filter_app, no_dots. cbn [filter app List.length]. destruct (sdup (map r_name rs)) eqn:D; [reflexivity|]. apply sdup_false in D. tauto. }
  unfold roll_view. destruct (existsb _ _); [reflexivity|]. cbn [rbind]. unfold roll_strided. destruct (existsb _ rs); [reflexivity|]. cbn [rbind].
  unfold l_transpose_strict. now rewrite I.
Qed.

Lemma dict_set_dims r l : map r_dim (dict_set r l) = if in_dec string_dec (r_dim r) (map r_dim l) then map r_dim l else (map r_dim l ++ [r_dim r])%list.
Proof.
  induction l as [|q l IH]; [reflexivity|]. cbn [dict_set map]. destruct (String.eqb_spec (r_dim q) (r_dim r)) as [E|E].
  - cbn [map]. destruct (in_dec string_dec (r_dim r) (r_dim q :: map r_dim l)) as [H|H]; [now rewrite E|]. elim H. rewrite E. now left.
  - cbn [map]. rewrite IH. destruct (in_dec string_dec (r_dim r) (map r_dim l)) as [H|H]; destruct (in_dec string_dec (r_dim r) (r_dim q :: map r_dim l)) as [H'|H']; try reflexivity.
    + elim H'. now right.
    + destruct H' as [H'|H']; [congruence|tauto].
Qed.
Lemma dict_zip_dims l : NoDup (map r_dim (dict_zip l)) /\ incl (map r_dim (dict_zip l)) (map r_dim l).
Proof.
  unfold dict_zip. assert (G : forall l d, NoDup (map r_dim d) -> let e := fold_left (fun d r => dict_set r d) l d in NoDup (map r_dim e) /\ incl (map r_dim e) (map r_dim d ++ map r_dim l)).
  - clear. induction l as [|r l IH]; intros d N; cbn [fold_left map]; [rewrite app_nil_r; split; [exact N|apply incl_refl]|].
    destruct (IH (dict_set r d)) as [I1 I2].
    + rewrite dict_set_dims. destruct (in_dec _ _ _) as [H|H]; [exact N|]. apply NoDup_app_; [exact N|repeat constructor; intros []|]. intros x Hx [Q|[]]. subst x. tauto.
    + cbv zeta. split; [exact I1|]. intros n Hn. apply I2 in Hn. rewrite dict_set_dims in Hn. rewrite in_app_iff in *. cbn [In].
      destruct (in_dec string_dec (r_dim r) (map r_dim d)) as [H|H]; [tauto|]. rewrite in_app_iff in Hn. cbn [In] in Hn. tauto.
  - destruct (G l [] (NoDup_nil _)) as [G1 G2]. now split.
Qed.
(* a dimension named twice is refused, unless it is the name for a window that is a dimension *)
Theorem windows_repeated : forall {T} (fill : T) p window axis dim center stride window_dim rs (g : lgrid T),
  NoDup (lg_dims g) -> selects p axis dim (lg_dims g) (map r_dim rs) -> ~ NoDup (map r_dim rs) ->
  stands_for (List.length rs) window (map r_win rs) -> stands_for (List.length rs) center (map r_center rs) ->
  stands_for (List.length rs) stride (map r_stride rs) -> window_names window_dim (map r_dim rs) (map r_name rs) ->
  (forall n, In n (map r_name rs) -> ~ In n (lg_dims g)) ->
  construct_windows_labelled fill p window axis dim center stride window_dim g = Raise EValue.
Proof.
  intros T fill p window axis dim center stride wd rs g Nx HS Nd W C S' N Fr. unfold construct_windows_labelled.
  destruct (selects_ok p axis dim _ _ Nx HS) as (axes & ->). cbn [rbind].
  rewrite map_length. rewrite (stands_list _ _ _ W), (stands_list _ _ _ C), (stands_list _ _ _ S') by now rewrite map_length.
  assert (EN : match wd with None => map (append "rolling_") (map r_dim rs) | Some (Scalar s) => [s] | Some (Seq l) => l end = map r_name rs).
  { destruct N as [[-> E]|[->|(s & -> & E)]]; congruence. }
  rewrite EN. rewrite !map_length, !Nat.eqb_refl. cbn [andb negb]. rewrite rolls_back. destruct (dict_zip_dims rs) as [Z1 Z2].
  set (rs' := dict_zip rs) in *. destruct (existsb _ rs'); [reflexivity|].
  assert (L : List.length rs' < List.length rs).
  { assert (L : List.length rs' <= List.length (nodup string_dec (map r_dim rs))).
    { rewrite <- (map_length r_dim rs'). apply NoDup_incl_length; [exact Z1|]. intros n Hn. apply nodup_In. now apply Z2. }
    assert (Q : sdup (map r_dim rs) = true) by (destruct (sdup (map r_dim rs)) eqn:D; [reflexivity|]; apply sdup_false in D; tauto).
    unfold sdup in Q. apply negb_true_iff, Nat.eqb_neq in Q. rewrite map_length in Q.
    assert (List.length (nodup string_dec (map r_dim rs)) <= List.length rs); [|lia].
    rewrite <- (map_length r_dim rs). apply NoDup_incl_length; [apply NoDup_nodup|]. intros n Hn. now apply nodup_In in Hn. }
  assert (I : infix_dims (map Some (map r_name rs) ++ [None]) (lg_dims g ++ map r_name rs') = Raise EValue).
  { unfold infix_dims. assert (G : given (map Some (map r_name rs) ++ [None]) = map r_name rs) by (unfold given; rewrite flat_map_app; cbn; rewrite app_nil_r; apply given_some).
    rewrite G, filter_app, no_dots. cbn [filter app List.length]. destruct (sdup (map r_name rs)) eqn:D; [reflexivity|]. apply sdup_false in D. cbn [orb].
    destruct (forallb _ _) eqn:F; [|reflexivity]. exfalso. rewrite forallb_forall in F.
    assert (List.length (map r_name rs) <= List.length (map r_name rs')); [|rewrite !map_length in *; lia].
    apply NoDup_incl_length; [exact D|]. intros n Hn. specialize (F n Hn). assert (F' : In n (lg_dims g ++ map r_name rs')) by (destruct (in_dec string_dec n (lg_dims g ++ map r_name rs')) as [Q|Q]; [exact Q|]; apply smem_false in Q; congruence). clear F. rename F' into F. apply in_app_iff in F. destruct F as [F|F]; [|exact F]. now elim (Fr n Hn). }
  unfold roll_view. destruct (existsb _ _); [reflexivity|]. cbn [rbind]. unfold roll_strided. destruct (existsb _ rs'); [reflexivity|]. cbn [rbind].
  unfold l_transpose_strict. cbn [lg_dims roll_pad]. now rewrite I.
Qed.

(* no window, a stride of 0, or a dimension without entries: refused *)
Theorem windows_impossible : forall {T} (fill : T) p window axis dim center stride window_dim rs sz (g : lgrid T),
  grid_ok (lg_val g) -> gshape (lg_val g) = map sz (lg_dims g) -> NoDup (lg_dims g) ->
  selects p axis dim (lg_dims g) (map r_dim rs) -> NoDup (map r_dim rs) ->
  stands_for (List.length rs) window (map r_win rs) -> stands_for (List.length rs) center (map r_center rs) ->
  stands_for (List.length rs) stride (map r_stride rs) -> window_names window_dim (map r_dim rs) (map r_name rs) ->
  Exists (fun r => (r_win r <= 0)%Z \/ r_stride r = 0%Z \/ sz (r_dim r) = 0) rs ->
  construct_windows_labelled fill p window axis dim center stride window_dim g = Raise EValue.
Proof.
  intros T fill p window axis dim center stride wd rs sz g Hg Sg Nx HS Nd W C Hs N X. unfold construct_windows_labelled.
  destruct (selects_ok p axis dim _ _ Nx HS) as (axes & ->). cbn [rbind].
  assert (Id : incl (map r_dim rs) (lg_dims g)).
  { destruct HS as (ax & F & _). clear - F. induction F as [|a d ax ds H F IH]; intros n Hn; [destruct Hn|]. destruct Hn as [<-|Hn]; [now apply nth_error_In in H|now apply IH]. }
  rewrite map_length. rewrite (stands_list _ _ _ W), (stands_list _ _ _ C), (stands_list _ _ _ Hs) by now rewrite map_length.
  assert (EN : match wd with None => map (append "rolling_") (map r_dim rs) | Some (Scalar s) => [s] | Some (Seq l) => l end = map r_name rs).
  { destruct N as [[-> E]|[->|(s & -> & E)]]; congruence. }
  rewrite EN. rewrite !map_length, !Nat.eqb_refl. cbn [andb negb]. rewrite rolls_back, dict_zip_id by exact Nd.
  destruct (existsb (fun r => (r_win r <=? 0)%Z) rs) eqn:Ew; [reflexivity|].
  assert (Wp : forall r, In r rs -> (0 < r_win r)%Z).
  { intros r Hr. destruct (Z.leb_spec (r_win r) 0) as [H|H]; [|exact H]. assert (existsb (fun r => (r_win r <=? 0)%Z) rs = true); [|congruence].
    apply existsb_exists. exists r. split; [exact Hr|]. now apply Z.leb_le. }
  apply Exists_exists in X. destruct X as (r & Hr & [X|[X|X]]); [specialize (Wp r Hr); lia| |].
  - clear Ew. unfold roll_view. match goal with |- context [existsb ?f (combine ?a ?b)] => destruct (existsb f (combine a b)) end; [reflexivity|]. cbn [rbind]. unfold roll_strided. replace (existsb _ rs) with true; [reflexivity|].
    symmetry. apply existsb_exists. exists r. split; [exact Hr|]. now rewrite X.
  - clear Ew. unfold roll_view, roll_pad. cbn [lg_dims lg_val gshape gtabulate]. rewrite Sg, combine_map_r, map_map, combine_map_r. cbn [fst snd].
    replace (existsb _ _) with true; [reflexivity|]. symmetry. apply existsb_exists.
    exists (r_dim r, sz (r_dim r) + match roll_of rs (r_dim r) with Some r => win r - 1 | None => 0 end). split.
    + apply in_map_iff. exists (r_dim r). split; [reflexivity|]. apply Id. now apply in_map.
    + cbn [fst snd]. unfold roll_of. rewrite (find_name r_dim rs r Nd Hr), X. specialize (Wp r Hr). apply Nat.ltb_lt. unfold win. lia.
Qed.

(* ---- arrays without names ------------------------------------------------------------- *)

Lemma append_inj s a b : append s a = append s b -> a = b.
Proof. induction s as [|c s IH]; cbn; [auto|]. intros H. inversion H. auto. Qed.
Lemma auto_dim_inj i j : auto_dim i = auto_dim j -> i = j.
Proof.
  intros H. apply append_inj in H. apply Unsigned.to_uint_inj.
  assert (N : forall n, Nat.to_uint n <> Decimal.Nil).
  { intros n. rewrite <- (Unsigned.of_to n) at 1. rewrite Unsigned.to_of. apply unorm_nonnil. }
  pose proof (NilZero.usu _ (N i)) as A. rewrite H, (NilZero.usu _ (N j)) in A. now inversion A.
Qed.
Lemma auto_NoDup l : NoDup l -> NoDup (map auto_dim l).
Proof. intros H. apply FinFun.Injective_map_NoDup; [intros i j; apply auto_dim_inj|exact H]. Qed.
Lemma auto_In a l : In (auto_dim a) (map auto_dim l) <-> In a l.
Proof. rewrite in_map_iff. split; [intros (b & E & H); apply auto_dim_inj in E; now subst|eauto]. Qed.
Lemma auto_position n a : a < n -> position String.eqb (auto_dim a) (map auto_dim (seq 0 n)) = a.
Proof.
  intros H. apply position_unique; [apply auto_NoDup, seq_NoDup|]. rewrite nth_error_map. rewrite (nth_error_nth' _ 0) by now rewrite seq_length. rewrite seq_nth by exact H. reflexivity.
Qed.
Lemma auto_nth n a : a < n -> nth_error (map auto_dim (seq 0 n)) a = Some (auto_dim a).
Proof. intros H. rewrite nth_error_map. rewrite (nth_error_nth' _ 0) by now rewrite seq_length. rewrite seq_nth by exact H. reflexivity. Qed.
Lemma rolling_fresh i j : append "rolling_" (auto_dim i) <> auto_dim j.
Proof. cbn. discriminate. Qed.

Lemma told_params n nd ax M : told_moments n nd ax M ->
  exists p, x_factory true MPNone nd None ax (ODataArray (map auto_dim (seq 0 n))) None = Ok p /\ mom_dims_of p = map auto_dim M /\ counted p = List.length M.
Proof.
  assert (G : forall l, Forall2 (is_axis n) l M -> mapR (py_get (map auto_dim (seq 0 n))) l = Ok (map auto_dim M)).
  { intros l F. apply py_get_list. induction F as [|z a l M' H F IH]; cbn [map]; constructor; auto. exists a. rewrite map_length, seq_length. split; [exact H|]. apply auto_nth.
    unfold is_axis in H. lia. }
  intros [(-> & -> & ->)|(l & F & L & H)].
  - exists (XP None None). cbn. auto.
  - exists (XP (Some (Z.of_nat (List.length l))) (Some (map auto_dim M))). unfold mom_dims_of, counted. cbn [xp_dims xp_ndim]. rewrite Nat2Z.id.
    split; [|split; [reflexivity|now apply same_length in F]].
    assert (Q : validate_mom_ndim_and_mom_axes nd ax None = Ok (Z.of_nat (List.length l), l)).
    { unfold validate_mom_ndim_and_mom_axes. destruct H as [[H N]|(-> & -> & E)].
      - assert (A : exists a, ax = Some a /\ validate_mom_axes a = Ok l).
        { destruct H as [->|(z & -> & ->)]; eexists; split; try reflexivity. cbn. destruct L as [-> | ->]; reflexivity. }
        destruct A as (a & -> & ->). cbn [rbind]. destruct N as [-> | ->]; [reflexivity|]. now rewrite Z.eqb_refl.
      - rewrite E at 3. destruct L as [-> | ->]; reflexivity. }
    assert (W : x_factory true MPNone nd None ax (ODataArray (map auto_dim (seq 0 n))) None =
      rbind (validate_dims_ndim_axes None nd (ODataArray (map auto_dim (seq 0 n))) ax) (fun p => Ok (XP (Some (snd p)) (Some (fst p))))).
    { destruct H as [[[->|(z & -> & ->)] [-> | ->]]|(-> & -> & _)]; reflexivity. }
    rewrite W. unfold validate_dims_ndim_axes. rewrite Q. cbn [rbind fst snd]. unfold validate_mom_dims. rewrite (G l F). reflexivity.
Qed.

(* every window of an array shows the entries around its position *)
Theorem windows_of_array : forall {T} (fill : T) window axis center stride mom_ndim mom_axes mp A M ws cs ss (g : grid T),
  let n := List.length (gshape g) in
  grid_ok g -> told_moments n mom_ndim mom_axes M -> rolls_axes n axis M A ->
  stands_for (List.length A) window ws -> stands_for (List.length A) center cs -> stands_for (List.length A) stride ss ->
  List.length ws = List.length A -> List.length cs = List.length A -> List.length ss = List.length A ->
  Forall (fun w => 0 < w)%Z ws -> Forall (fun s => s <> 0)%Z ss -> Forall (fun a => 0 < nth a (gshape g) 0) A ->
  exists out, construct_windows fill window axis center stride mom_ndim mom_axes mp g = Ok out /\ array_windows fill A ws cs ss g out.
Proof.
  intros T fill window axis center stride nd ax mp A M ws cs ss g n Hg HM (NA & HA & HX) W C Hs Lw Lc Ls Pw Ps Pa.
  destruct (told_params n nd ax M HM) as (p & Ep & Em & Ec).
  unfold construct_windows, auto_labelled. cbn [lg_dims]. fold n. rewrite Ep. cbn [rbind].
  set (dims := map auto_dim (seq 0 n)). set (x := LG dims g).
  pose (rs := map (fun k => Roll (auto_dim (nth k A 0)) (nth k ws 0%Z) (nth k cs false) (nth k ss 0%Z) (append "rolling_" (auto_dim (nth k A 0)))) (seq 0 (List.length A))).
  assert (R1 : map r_dim rs = map auto_dim A).
  { unfold rs. rewrite map_map. cbn [r_dim]. transitivity (map auto_dim (map (fun k => nth k A 0) (seq 0 (List.length A)))); [now rewrite map_map|]. f_equal. now apply map_nth_seq. }
  assert (R2 : map r_win rs = ws) by (unfold rs; rewrite map_map; cbn [r_win]; rewrite <- Lw; now apply map_nth_seq).
  assert (R3 : map r_center rs = cs) by (unfold rs; rewrite map_map; cbn [r_center]; rewrite <- Lc; now apply map_nth_seq).
  assert (R4 : map r_stride rs = ss) by (unfold rs; rewrite map_map; cbn [r_stride]; rewrite <- Ls; now apply map_nth_seq).
  assert (R5 : map r_name rs = map (append "rolling_") (map auto_dim A)).
  { rewrite <- R1. unfold rs. rewrite !map_map. reflexivity. }
  assert (Lr : List.length rs = List.length A) by (unfold rs; now rewrite map_length, seq_length).
  pose (sz := fun d => nth (position String.eqb d dims) (gshape g) 0).
  assert (SZ : forall a, a < n -> sz (auto_dim a) = nth a (gshape g) 0) by (intros a Ha; unfold sz, dims; now rewrite auto_position).
  assert (Sg : gshape g = map sz dims).
  { unfold dims. rewrite map_map. transitivity (map (fun a => nth a (gshape g) 0) (seq 0 n)); [symmetry; now apply map_nth_seq|]. apply map_ext_in. intros a Ha. apply in_seq in Ha. now rewrite SZ. }
  assert (Fr : forall m, In m (map r_name rs) -> ~ In m dims).
  { intros m Hm Q. rewrite R5, map_map in Hm. apply in_map_iff in Hm. destruct Hm as (a & <- & _). unfold dims in Q. apply in_map_iff in Q. destruct Q as (b & Q & _). now apply (rolling_fresh a b). }
  destruct (windows_by_name fill p window axis Missing center stride None rs sz x) as (out & Eo & O1 & O2 & O3 & O4); unfold x in *; cbn [lg_dims lg_val] in *; auto.
  - apply auto_NoDup, seq_NoDup.
  - rewrite R1. unfold selects. exists A. split; [|split].
    + clear - HA. induction A as [|a A IH]; cbn [map]; constructor; [apply auto_nth; apply HA; now left|]. apply IH. intros b Hb. apply HA. now right.
    + intros d Hd Q. unfold is_moment in Q. rewrite Em in Q. apply in_map_iff in Hd. destruct Hd as (a & <- & Ha). apply auto_In in Q. now apply (HA a Ha).
    + unfold dims. rewrite map_length, seq_length, Ec. right. right. destruct HX as [[-> ->]|(l & -> & F)]; [now left|right]. split; [reflexivity|]. exists l. auto.
  - rewrite R1. now apply auto_NoDup.
  - rewrite Lr, R2. exact W.
  - rewrite Lr, R3. exact C.
  - rewrite Lr, R4. exact Hs.
  - left. split; [reflexivity|]. now rewrite R5, R1.
  - rewrite R5, map_map. apply FinFun.Injective_map_NoDup; [|exact NA]. intros a b E. apply append_inj in E. now apply auto_dim_inj.
  - unfold rs. apply Forall_forall. intros r Hr. apply in_map_iff in Hr. destruct Hr as (k & <- & Hk). apply in_seq in Hk. cbn [r_win r_stride r_dim].
    assert (Hk' : k < List.length A) by lia. assert (Ia : In (nth k A 0) A) by now apply nth_In.
    rewrite Forall_forall in Pw, Ps, Pa. split; [apply Pw, nth_In; lia|]. split; [apply Ps, nth_In; lia|]. rewrite SZ by now apply HA. now apply Pa.
  - rewrite Eo. cbn [rmap rbind]. exists (lg_val out). split; [reflexivity|].
    assert (NR : NoDup (map r_name rs)) by (rewrite R5, map_map; apply FinFun.Injective_map_NoDup; [|exact NA]; intros a b E; apply append_inj in E; now apply auto_dim_inj).
    assert (ND : NoDup (map r_dim rs)) by (rewrite R1; now apply auto_NoDup).
    pose (rk := fun k => Roll (auto_dim (nth k A 0)) (nth k ws 0%Z) (nth k cs false) (nth k ss 0%Z) (append "rolling_" (auto_dim (nth k A 0)))).
    assert (IR : forall k, k < List.length A -> In (rk k) rs) by (intros k Hk; unfold rs; apply in_map_iff; exists k; split; [reflexivity|]; apply in_seq; lia).
    assert (RI : forall r, In r rs -> exists k, k < List.length A /\ r = rk k) by (intros r Hr; unfold rs in Hr; apply in_map_iff in Hr; destruct Hr as (k & <- & Hk); apply in_seq in Hk; exists k; split; [lia|reflexivity]).
    assert (NR' : forall k d, k < List.length A -> nth k rs d = rk k) by (intros k d Hk; unfold rs; rewrite (nth_map_in _ _ k d 0) by (rewrite seq_length; lia); rewrite seq_nth by lia; reflexivity).
    assert (WN : forall k, k < List.length A -> window_size rs sz (r_name (rk k)) = Z.to_nat (nth k ws 0%Z)) by (intros k Hk; unfold window_size; now rewrite (find_name r_name rs (rk k) NR (IR k Hk))).
    assert (WD : forall a, a < n -> window_size rs sz (auto_dim a) = if in_dec Nat.eq_dec a A then S ((nth a (gshape g) 0 - 1) / Z.abs_nat (nth (index_of a A) ss 0%Z)) else nth a (gshape g) 0).
    { intros a Ha. unfold window_size. rewrite (find_name_none r_name rs (auto_dim a)) by (intros Q; apply (Fr _ Q); unfold dims; apply auto_In, in_seq; lia).
      destruct (in_dec Nat.eq_dec a A) as [I|I].
      - destruct (index_of_lt a A I) as [K1 K2]. pose proof (find_name r_dim rs (rk (index_of a A)) ND (IR _ K1)) as F. cbn [rk r_dim] in F. rewrite K2 in F. rewrite F. cbn [r_stride rk]. now rewrite SZ.
      - rewrite find_name_none by (rewrite R1, auto_In; exact I). now apply SZ. }
    unfold array_windows. fold n. split; [exact O2|]. split.
    + rewrite O3, O1, map_app. f_equal.
      * transitivity (map (fun r => window_size rs sz (r_name r)) rs); [now rewrite map_map|]. rewrite <- R2. rewrite map_map. apply map_ext_in. intros r Hr. destruct (RI r Hr) as (k & Hk & ->). rewrite WN by exact Hk. reflexivity.
      * unfold dims. rewrite map_map. apply map_ext_in. intros a Ha. apply in_seq in Ha. apply WD. lia.
    + intros env j He Hj.
      assert (Lj : List.length j = List.length A) by (apply same_length in Hj; rewrite map_length in Hj; congruence).
      pose (env' := name_bind (map r_name rs) j (fun d => env (position String.eqb d dims))).
      assert (E1 : map env' (map r_name rs) = j) by (apply map_name_bind; [exact NR|rewrite map_length; congruence]).
      assert (E2 : forall a, a < n -> env' (auto_dim a) = env a).
      { intros a Ha. unfold env'. rewrite name_bind_out; [unfold dims; now rewrite auto_position|]. intros Q. apply (Fr _ Q). unfold dims. apply auto_In, in_seq. lia. }
      assert (E3 : forall k, k < List.length A -> env' (r_name (rk k)) = nth k j 0).
      { intros k Hk. rewrite <- E1. rewrite map_map. rewrite (nth_map_in _ _ k 0 (rk k)) by lia. f_equal. f_equal. unfold rs. rewrite (nth_map_in _ _ k (rk k) 0) by (rewrite seq_length; lia). rewrite seq_nth by lia. reflexivity. }
      assert (E4 : map env' (lg_dims out) = (j ++ map env (seq 0 n))%list).
      { rewrite O1, map_app, E1. f_equal. unfold dims. rewrite map_map. apply map_ext_in. intros a Ha. apply in_seq in Ha. apply E2. lia. }
      assert (I : inside_names (window_size rs sz) (lg_dims out) env').
      { intros m Hm. rewrite O1 in Hm. apply in_app_iff in Hm. destruct Hm as [Hm|Hm].
        - apply in_map_iff in Hm. destruct Hm as (r & <- & Hr). destruct (RI r Hr) as (k & Hk & ->). rewrite E3, WN by exact Hk.
          clear - Hj Hk Lj Lw. revert k Hk Lj Lw. generalize (List.length A). intros N k Hk Lj Lw.
          assert (Q : forall (j : list nat) (ws : list Z), Forall2 lt j (map Z.to_nat ws) -> forall k, k < List.length j -> nth k j 0 < Z.to_nat (nth k ws 0%Z)).
          { clear. intros j ws. revert j. induction ws as [|w ws IH]; intros j F k Hk; inversion F; subst; [cbn in Hk; lia|]. destruct k as [|k]; cbn [nth]; [assumption|]. apply IH; [assumption|]. cbn in Hk. lia. }
          apply Q; [exact Hj|lia].
        - unfold dims in Hm. apply in_map_iff in Hm. destruct Hm as (a & <- & Ha). apply in_seq in Ha. rewrite E2, WD by lia. apply He. apply in_seq. lia. }
      specialize (O4 env' I). unfold l_at in O4. rewrite E4 in O4. cbn [lg_val lg_dims] in O4.
      assert (ES : forall k, k < List.length A -> source (sz (r_dim (rk k))) (rk k) env' =
        source_at (nth (nth k A 0) (gshape g) 0) (nth k ws 0%Z) (nth k cs false) (nth k ss 0%Z) (env (nth k A 0)) (nth k j 0)).
      { intros k Hk. assert (Ia : In (nth k A 0) A) by now apply nth_In. unfold source. rewrite E3 by exact Hk. cbn [rk r_dim]. rewrite E2, SZ by now apply HA. reflexivity. }
      destruct O4 as [P1 P2]. split.
      * intros H. etransitivity; [apply P1|].
        -- intros r Hr. destruct (RI r Hr) as (k & Hk & ->). rewrite ES by exact Hk. cbn [rk r_dim]. rewrite SZ by (apply HA, nth_In; exact Hk). now apply H.
        -- f_equal. unfold dims. rewrite map_map. apply map_ext_in. intros a Ha. apply in_seq in Ha. destruct (in_dec Nat.eq_dec a A) as [Ia|Ia].
           ++ destruct (index_of_lt a A Ia) as [K1 K2]. rewrite bind_in; [|exact NA|rewrite map_length, seq_length; reflexivity|exact Ia].
              rewrite (nth_map_in _ _ _ 0 0) by now rewrite seq_length. rewrite seq_nth by exact K1. cbn [Nat.add].
              pose proof (name_bind_in (map r_dim rs) (map (fun r => Z.to_nat (source (sz (r_dim r)) r env')) rs) env' (index_of a A) ND) as NB.
              rewrite !map_length in NB. specialize (NB eq_refl ltac:(lia)).
              rewrite (nth_map_in r_dim rs _ "" (rk 0)) in NB by lia. rewrite NR' in NB by exact K1. cbn [rk r_dim] in NB. rewrite K2 in NB. rewrite NB.
              rewrite (nth_map_in _ _ _ 0 (rk 0)) by lia. rewrite NR' by exact K1. now rewrite ES.
           ++ rewrite bind_out by exact Ia. rewrite name_bind_out by (rewrite R1, auto_In; exact Ia). apply E2. lia.
      * intros (k & Hk & H). apply P2. exists (rk k). split; [now apply IR|]. rewrite ES by exact Hk. cbn [rk r_dim]. rewrite SZ by (apply HA, nth_In; exact Hk). exact H.
Qed.
