(* Concatenation of labelled objects: convert.concat for CentralMomentsData (C60). *)
From Coq Require Import String Permutation.
From Verif Require Import Base BaseLemmas Checks ModelKernels ModelIndex ModelAxes ModelState ModelParams ModelWrap SpecAxes ProofAxes ProofArrays ProofIndex PropAxes PropParams PropWrap PropReshape PropConcat PropLabelled.
Local Open Scope string_scope.
Local Open Scope nat_scope.

(* arrays xs over the names ds, with lengths sz except along dim, where the k-th has
   length ns[k]; the order of dimensions may differ *)
Definition alongside (xs : list xarr) (ds : list sname) (dim : sname) (sz : sname -> nat) (ns : list nat) : Prop :=
  Forall2 (fun x n => x_ok x /\ Permutation (x_dims x) ds /\ (forall d, In d ds -> d <> dim -> dim_size x d = sz d) /\ dim_size x dim = n) xs ns.
Definition with_dim (env : sname -> nat) (dim : sname) (j : nat) : sname -> nat := fun d => if String.eqb d dim then j else env d.

Lemma ordered_like x y : x_ok y -> Permutation (x_dims y) (x_dims x) -> NoDup (x_dims x) ->
  exists z, x_transpose (map Some (x_dims x)) y = Ok z /\ x_ok z /\ x_same y z /\ x_dims z = x_dims x.
Proof.
  intros Hy P N. assert (E : infix_dims (map Some (x_dims x)) (x_dims y) = Ok (x_dims x)).
  { unfold infix_dims. rewrite no_dots, given_some. cbn [List.length]. rewrite (proj2 (sdup_false _) N).
    rewrite !(proj2 (forallb_incl _ _)); [reflexivity| |]; intros d; apply Permutation_in; [exact P|now symmetry]. }
  destruct (x_transpose_ok _ _ _ Hy E) as (z & Ez & Dz). exists z. destruct (x_transpose_same _ _ _ Hy Ez) as (A & B & _). auto.
Qed.
Lemma ordered_all x ys : NoDup (x_dims x) -> Forall (fun y => x_ok y /\ Permutation (x_dims y) (x_dims x)) ys ->
  exists zs, mapR (fun y => rbind (x_transpose (map Some (x_dims x)) y) (fun z => Ok (x_val z))) ys = Ok (map x_val zs) /\
    Forall2 (fun y z => x_ok z /\ x_same y z /\ x_dims z = x_dims x) ys zs.
Proof.
  intros N F. induction F as [|y ys [Hy P] F (zs & E & G)]; [exists []; split; [reflexivity|constructor]|]. destruct (ordered_like x y Hy P N) as (z & Ez & A & B & C).
  exists (z :: zs). split; [|constructor; auto]. cbn [mapR map]. rewrite Ez. cbn [rbind]. now rewrite E.
Qed.
Lemma forall2_nth {S T} (R : S -> T -> Prop) l m ds dt : Forall2 R l m -> forall k, k < List.length l -> R (nth k l ds) (nth k m dt).
Proof. intros F. induction F as [|a b l m H F IH]; intros [|k] Hk; cbn in *; try lia; auto. apply IH. lia. Qed.
Lemma dim_size_at x p d q : x_ok x -> x_dims x = (p ++ d :: q)%list -> x_shape x = (map (dim_size x) p ++ dim_size x d :: map (dim_size x) q)%list.
Proof. intros H E. rewrite (shape_named x H), E, map_app. reflexivity. Qed.
Lemma NoDup_mid {T} (p : list T) d q : NoDup (p ++ d :: q) -> (~ In d p) /\ ~ In d q.
Proof. intros N. apply NoDup_remove_2 in N. rewrite in_app_iff in N. tauto. Qed.
Lemma pos_mid p d q : ~ In d p -> position String.eqb d (p ++ d :: q) = List.length p.
Proof. induction p as [|x p IH]; intros H; cbn [app position List.length]; [now rewrite String.eqb_refl|]. destruct (String.eqb_spec d x) as [->|E]; [elim H; now left|]. f_equal. apply IH. intros Q. apply H. now right. Qed.
Lemma size_in_map (p : list sname) (f g : sname -> nat) : (forall d, In d p -> f d = g d) -> map f p = map g p.
Proof. apply map_ext_in. Qed.

(* Along a dimension they all have: entries of the k-th array stand behind those of
   the arrays before it. *)
Theorem x_concat_existing : forall dim x0 xs sz ns, alongside (x0 :: xs) (x_dims x0) dim sz ns -> In dim (x_dims x0) ->
  exists y, x_concat dim (x0 :: xs) = Ok y /\ x_ok y /\ x_dims y = x_dims x0 /\ dim_size y dim = list_sum ns /\
    (forall d, In d (x_dims x0) -> d <> dim -> dim_size y d = sz d) /\
    forall env k j xk, nth_error (x0 :: xs) k = Some xk -> j < nth k ns 0 -> (forall d, In d (x_dims x0) -> d <> dim -> env d < sz d) ->
      x_at y (with_dim env dim (list_sum (firstn k ns) + j)) = x_at xk (with_dim env dim j).
Proof.
  intros dim x0 xs sz ns F I. unfold x_concat. set (l := x0 :: xs) in *. assert (N : NoDup (x_dims x0)) by (inversion F as [|? ? ? ? ((_ & N & _) & _) _]; exact N).
  destruct (ordered_all x0 l N) as (zs & E & G). { clear -F. induction F as [|x n l ns (A & B & _) F IH]; constructor; auto. }
  rewrite E. cbn [rbind]. assert (Sm : smem dim (x_dims x0) = true) by now apply smem_In. rewrite Sm.
  destruct (in_split _ _ I) as (p & q & Ed). destruct (NoDup_mid p dim q) as [Np Nq]; [now rewrite <- Ed|]. assert (Ep : position String.eqb dim (x_dims x0) = List.length p) by (rewrite Ed; now apply pos_mid). rewrite Ep.
  assert (Inn : forall d, In d p \/ In d q -> In d (x_dims x0) /\ d <> dim) by (intros d [Hd|Hd]; (split; [rewrite Ed; apply in_app_iff; cbn; auto|intros ->; contradiction])).
  assert (Fz : Forall2 (fun z n => x_ok z /\ x_dims z = x_dims x0 /\ x_shape z = (map sz p ++ n :: map sz q)%list /\ dim_size z dim = n) zs ns).
  { clear E. revert ns F. induction G as [|y z l zs (A & B & C) G IH]; intros ns F; inversion F as [|? n ? ns' (F1 & F2 & F3 & F4) F']; subst; constructor; [|apply IH; auto].
    destruct B as (B1 & B2 & B3). assert (Iy : forall d, In d (x_dims x0) -> In d (x_dims y)) by (intros d; apply Permutation_in; now symmetry).
    assert (Sz : dim_size z dim = dim_size y dim) by (symmetry; apply B2; auto). split; [exact A|]. split; [exact C|]. split; [|exact Sz].
    rewrite (dim_size_at z p dim q A) by congruence. rewrite Sz. f_equal; [|f_equal]; apply map_ext_in; intros d Hd; destruct (Inn d) as [D1 D2]; auto; rewrite <- B2 by auto; now apply F3. }
  assert (Ft : Forall2 (fun t n => tensor_ok t /\ tshape t = (map sz p ++ n :: map sz q)%list) (map x_val zs) ns) by (clear -Fz; induction Fz as [|z n zs ns ((A & _) & _ & B & _) Fz IH]; cbn [map]; constructor; auto).
  assert (Ne : map x_val zs <> []) by (destruct zs; [inversion G|discriminate]).
  destruct (concatenate_entries (map x_val zs) ns (map sz p) (map sz q) (Z.of_nat (List.length p)) Ne Ft) as (t & Et & Ht & St & Gt). { rewrite !map_length. unfold is_axis. lia. }
  rewrite Et. cbn [rbind]. eexists. split; [reflexivity|]. set (y := XA _ t).
  assert (Hy : x_ok y). { split; [exact Ht|]. split; [exact N|]. unfold y, x_shape. cbn [x_dims x_val]. rewrite St, Ed, !app_length. cbn [List.length]. now rewrite !map_length. }
  assert (Sy : forall d, In d (p ++ dim :: q) -> dim_size y d = if String.eqb d dim then list_sum ns else sz d).
  { intros d Hd. pose proof (shape_named y Hy) as X. change (tshape t = map (dim_size y) (x_dims x0)) in X. rewrite Ed in X. rewrite St in X.
    assert (X' : map (fun d => if String.eqb d dim then list_sum ns else sz d) (p ++ dim :: q) = map (dim_size y) (p ++ dim :: q)).
    { rewrite <- X. rewrite map_app. cbn [map]. rewrite String.eqb_refl. f_equal; [|f_equal]; apply map_ext_in; intros e He; destruct (Inn e) as [_ E2]; auto; destruct (String.eqb_spec e dim); congruence. }
    symmetry. exact (map_inj_in _ _ _ X' d Hd). }
  split; [exact Hy|]. split; [reflexivity|]. split; [rewrite Sy, String.eqb_refl; [reflexivity|apply in_app_iff; right; now left]|]. split.
  { intros d Hd Hne. rewrite Ed in Hd. rewrite Sy by exact Hd. destruct (String.eqb_spec d dim); congruence. }
  intros env k j xk Ek Hj Henv.
  assert (Lk : k < List.length l) by (apply nth_error_Some; congruence). assert (Lz : List.length l = List.length zs) by (eapply Forall2_len; eauto).
  destruct (forall2_nth _ _ _ x0 x0 G k Lk) as (Z1 & Z2 & Z3). rewrite (nth_error_nth _ _ _ Ek) in Z2. set (z := nth k zs x0) in *.
  assert (V1 : valid (map sz p) (map env p)) by (assert (Q : forall d, In d p -> env d < sz d) by (intros d Hd; destruct (Inn d); auto); clear -Q; induction p; cbn; constructor; [apply Q; now left|apply IHp; intros; apply Q; now right]).
  assert (V2 : valid (map sz q) (map env q)) by (assert (Q : forall d, In d q -> env d < sz d) by (intros d Hd; destruct (Inn d); auto); clear -Q; induction q; cbn; constructor; [apply Q; now left|apply IHq; intros; apply Q; now right]).
  specialize (Gt k (map env p) j (map env q)). rewrite map_length in Gt. specialize (Gt ltac:(lia) Hj V1 V2).
  assert (W : forall i, map (with_dim env dim i) (p ++ dim :: q) = (map env p ++ i :: map env q)%list).
  { intros i. rewrite map_app. cbn [map]. unfold with_dim at 2. rewrite String.eqb_refl. f_equal; [|f_equal]; apply map_ext_in; intros d Hd; unfold with_dim; destruct (Inn d) as [_ E2]; auto; destruct (String.eqb_spec d dim); congruence. }
  unfold x_at at 1. unfold y. cbn [x_dims x_val]. rewrite Ed, W, Gt.
  assert (Ez : nth k (map x_val zs) (Tensor [] []) = x_val z) by (rewrite (nth_indep _ _ (x_val x0)) by (rewrite map_length; lia); now rewrite map_nth). rewrite Ez.
  destruct Z2 as (D1 & D2 & D3). rewrite D3.
  - unfold x_at. rewrite Z3, Ed, W. reflexivity.
  - destruct (forall2_nth _ _ _ x0 0 F k Lk) as (F1 & F2 & F3 & F4). rewrite (nth_error_nth _ _ _ Ek) in F1, F2, F3, F4.
    intros d Hd. assert (Hd0 : In d (x_dims x0)) by (eapply Permutation_in; eauto). unfold with_dim. destruct (String.eqb_spec d dim) as [->|Hne]; [now rewrite F4|]. rewrite F3 by auto. auto.
Qed.

(* Along a new dimension: it comes first, the k-th array is its k-th slice. *)
Lemma expand_front t : tensor_ok t -> tensor_ok (expand_dims [0] t) /\ tshape (expand_dims [0] t) = 1 :: tshape t /\ forall idx, tget (expand_dims [0] t) (0 :: idx) = tget t idx.
Proof.
  intros H. assert (G : forall n pos s, 0 < pos -> List.length s = n -> expand_shape n [0] pos s = s).
  { induction n as [|n IH]; intros pos s Hp L; destruct s as [|a s]; try discriminate; [reflexivity|]. cbn [expand_shape]. unfold nat_mem. cbn [existsb]. destruct pos; [lia|]. cbn [Nat.eqb orb]. f_equal. apply IH; [lia|now injection L]. }
  assert (S : tshape (expand_dims [0] t) = 1 :: tshape t).
  { unfold expand_dims. cbn [tshape List.length]. rewrite Nat.add_1_r. cbn [expand_shape]. change (nat_mem 0 [0]) with true. cbv iota. f_equal. apply G; [lia|reflexivity]. }
  split; [|split; [exact S|]].
  - unfold tensor_ok. rewrite S. cbn [expand_dims tdata]. rewrite H. unfold size. cbn. lia.
  - intros idx. unfold tget. rewrite S. cbn [expand_dims tdata ravel]. reflexivity.
Qed.
Lemma sum_ones n k : k <= n -> list_sum (firstn k (repeat 1 n)) = k.
Proof. revert k. induction n as [|n IH]; intros [|k] H; cbn; try lia. rewrite IH by lia. reflexivity. Qed.
Theorem x_concat_new : forall dim x0 xs sz, ~ In dim (x_dims x0) ->
  Forall (fun x => x_ok x /\ Permutation (x_dims x) (x_dims x0) /\ forall d, In d (x_dims x0) -> dim_size x d = sz d) (x0 :: xs) ->
  exists y, x_concat dim (x0 :: xs) = Ok y /\ x_ok y /\ x_dims y = dim :: x_dims x0 /\ dim_size y dim = S (List.length xs) /\
    (forall d, In d (x_dims x0) -> dim_size y d = sz d) /\
    forall env k xk, nth_error (x0 :: xs) k = Some xk -> (forall d, In d (x_dims x0) -> env d < sz d) ->
      x_at y (with_dim env dim k) = x_at xk env.
Proof.
  intros dim x0 xs sz X F. unfold x_concat. set (l := x0 :: xs) in *. assert (N : NoDup (x_dims x0)) by (inversion F as [|? ? ((_ & N & _) & _) _]; exact N).
  destruct (ordered_all x0 l N) as (zs & E & G). { eapply Forall_impl; [|exact F]. cbn. intros x (A & B & _). auto. }
  rewrite E. cbn [rbind]. assert (Sm : smem dim (x_dims x0) = false) by now apply smem_false. rewrite Sm. set (p := x_dims x0) in *.
  assert (Fz : Forall (fun z => x_ok z /\ x_dims z = p /\ x_shape z = map sz p) zs).
  { clear E. induction G as [|y z l' zs (A & B & C) G IH]; [constructor|]. inversion F as [|? ? (F1 & F2 & F3) F']; subst. constructor; [|auto]. split; [exact A|]. split; [exact C|].
    rewrite (shape_named z A), C. apply map_ext_in. intros d Hd. destruct B as (B1 & B2 & _). rewrite <- B2; [now apply F3|]. eapply Permutation_in; [symmetry; exact F2|exact Hd]. }
  assert (Lz : List.length l = List.length zs) by (eapply Forall2_len; eauto).
  assert (Ft : Forall2 (fun t n => tensor_ok t /\ tshape t = ([] ++ n :: map sz p)%list) (map (expand_dims [0]) (map x_val zs)) (repeat 1 (List.length l))).
  { rewrite Lz. clear -Fz. induction Fz as [|z zs ((A & _) & _ & B) Fz IH]; cbn [map List.length repeat]; constructor; [|exact IH]. destruct (expand_front (x_val z) A) as (E1 & E2 & _). split; [exact E1|]. rewrite E2. cbn [app]. f_equal. exact B. }
  assert (Ne : map (expand_dims [0]) (map x_val zs) <> []) by (destruct zs; [inversion G|discriminate]).
  destruct (concatenate_entries _ _ [] (map sz p) 0%Z Ne Ft) as (t & Et & Ht & St & Gt). { cbn [List.length]. unfold is_axis. lia. }
  rewrite Et. cbn [rbind]. eexists. split; [reflexivity|]. set (y := XA _ t). cbn [app] in St. rewrite <- (firstn_all (repeat 1 (List.length l))), repeat_length, sum_ones in St by lia.
  assert (Hy : x_ok y). { split; [exact Ht|]. split; [unfold y; cbn [x_dims]; now constructor|]. unfold y, x_shape. cbn [x_dims x_val]. rewrite St. cbn [List.length]. now rewrite map_length. }
  pose proof (shape_named y Hy) as Sh. change (tshape t = map (dim_size y) (dim :: p)) in Sh. rewrite St in Sh. cbn [map] in Sh. injection Sh as Sh1 Sh2.
  split; [exact Hy|]. split; [reflexivity|]. split; [rewrite <- Sh1; reflexivity|]. split; [intros d Hd; symmetry; exact (map_inj_in _ _ _ Sh2 d Hd)|].
  intros env k xk Ek Henv. assert (Lk : k < List.length l) by (apply nth_error_Some; congruence).
  destruct (forall2_nth _ _ _ x0 x0 G k Lk) as (Z1 & Z2 & Z3). rewrite (nth_error_nth _ _ _ Ek) in Z2. set (z := nth k zs x0) in *.
  assert (V2 : valid (map sz p) (map env p)) by (clear -Henv; induction p; cbn; constructor; [apply Henv; now left|apply IHp; intros; apply Henv; now right]).
  specialize (Gt k [] 0 (map env p)). rewrite !map_length, sum_ones in Gt by lia. cbn [app] in Gt. rewrite Nat.add_0_r in Gt.
  specialize (Gt ltac:(lia)). rewrite nth_repeat_any in Gt by exact Lk. specialize (Gt ltac:(lia) ltac:(constructor) V2).
  assert (W : map (with_dim env dim k) (dim :: p) = k :: map env p).
  { cbn [map]. unfold with_dim at 1. rewrite String.eqb_refl. f_equal. apply map_ext_in. intros d Hd. unfold with_dim. destruct (String.eqb_spec d dim); [subst; contradiction|reflexivity]. }
  unfold x_at at 1. unfold y. cbn [x_dims x_val]. rewrite W, Gt.
  assert (Ez : nth k (map (expand_dims [0]) (map x_val zs)) (Tensor [] []) = expand_dims [0] (x_val z)).
  { rewrite map_map. rewrite (nth_indep _ _ (expand_dims [0] (x_val x0))) by (rewrite map_length; lia). now rewrite (map_nth (fun x => expand_dims [0] (x_val x))). }
  rewrite Ez. destruct Z1 as (T1 & _). rewrite (proj2 (proj2 (expand_front _ T1))). destruct Z2 as (D1 & D2 & D3). rewrite D3.
  - unfold x_at. now rewrite Z3.
  - pose proof (proj1 (Forall_forall _ _) F xk (nth_error_In _ _ Ek)) as (F1 & F2 & F3). intros d Hd. assert (Hd0 : In d p) by (eapply Permutation_in; eauto). rewrite F3 by auto. auto.
Qed.

(* ---- objects -------------------------------------------------------------------------- *)

(* which dimension axis and dim name, dims being those of the first object *)
Definition says (axis : marg axis_arg) (dim : marg sname) (dims : list sname) (d : sname) : Prop :=
  (dim = Val d /\ (axis = Missing \/ ~ In d dims)) \/
  (dim = Missing /\ axis = Missing /\ nth_error dims 0 = Some d) \/
  (dim = Missing /\ exists x a, axis = Val x /\ names_axis (List.length dims) 0 x a /\ nth_error dims a = Some d).
Lemma concat_says axis dim x xs d : NoDup (x_dims x) -> says axis dim (x_dims x) d -> concat_labelled axis dim (x :: xs) = x_concat d (x :: xs).
Proof.
  intros N H. unfold concat_labelled.
  assert (Sel : forall ax dm a, ax <> PyNone -> dm <> PyNone -> (ax <> Missing \/ dm <> Missing) -> nth_error (x_dims x) a = Some d ->
    ((exists x0, ax = Val x0 /\ dm = Missing /\ names_axis (List.length (x_dims x)) (counted default_x_params) x0 a) \/ (ax = Missing /\ dm = Val d)) ->
    rbind (select_axis_dim default_x_params (XArr (x_dims x)) ax dm (Val (AInt 0)) Missing false) (fun r => Ok (snd r)) = Ok d).
  { intros ax dm a A1 A2 A3 A4 A5. rewrite select_axis_dim_default by (auto; discriminate).
    assert (E : select_axis_dim default_x_params (XArr (x_dims x)) ax dm Missing Missing false = Ok (a, d)).
    { apply select_axis_dim_exact; [exact N|]. split; [exact A4|]. split; [right; intros []|exact A5].
    }
    destruct ax as [| |ax], dm as [| |dm]; try (destruct A3; contradiction); rewrite E; reflexivity. }
  destruct H as [(-> & H)|[(-> & -> & H)|(-> & ax & a & -> & H1 & H2)]].
  - destruct (smem d (x_dims x)) eqn:S; [|reflexivity]. apply smem_In in S. destruct H as [->|H]; [|contradiction].
    rewrite (Sel Missing (Val d) (position String.eqb d (x_dims x))); try discriminate; [reflexivity|right; discriminate|now apply PropParams.position_nth|right; auto].
  - rewrite select_axis_dim_default by discriminate.
    assert (E : select_axis_dim default_x_params (XArr (x_dims x)) (Val (AInt 0)) Missing Missing Missing false = Ok (0, d)).
    { apply select_axis_dim_exact; [exact N|]. split; [exact H|]. split; [right; intros []|]. left. exists (AInt 0). split; [reflexivity|]. split; [reflexivity|]. cbn. unfold is_axis. destruct (x_dims x); [discriminate|]. cbn [List.length]. lia. }
    rewrite E. reflexivity.
  - rewrite (Sel (Val ax) Missing a); try discriminate; [reflexivity|left; discriminate|exact H2|left; exists ax; auto].
Qed.
Lemma last_dims_get (vd md : list sname) : List.length md = 1 \/ List.length md = 2 -> mapR (py_get (vd ++ md)) (axes_last (List.length md)) = Ok md.
Proof.
  intros H. apply py_get_list. destruct md as [|a [|b [|? ?]]]; cbn in H; try (exfalso; lia); clear H; unfold axes_last; cbn [List.length seq map].
  - constructor; [|constructor]. exists (List.length vd). rewrite app_length. cbn [List.length]. split; [unfold is_axis; lia|]. rewrite nth_error_app2, Nat.sub_diag by lia. reflexivity.
  - constructor; [|constructor; [|constructor]].
    + exists (List.length vd). rewrite app_length. cbn [List.length]. split; [unfold is_axis; lia|]. rewrite nth_error_app2, Nat.sub_diag by lia. reflexivity.
    + exists (S (List.length vd)). rewrite app_length. cbn [List.length]. split; [unfold is_axis; lia|]. rewrite nth_error_app2 by lia. replace (S (List.length vd) - List.length vd) with 1 by lia. reflexivity.
Qed.
(* moment dimensions of the result: the last ones *)
Lemma init_last y md vd : x_ok y -> x_dims y = (vd ++ md)%list -> NoDup md -> List.length md = 1 \/ List.length md = 2 -> Forall (fun d => 2 <= dim_size y d) md ->
  exists c, cx_init MPNone (Some (Z.of_nat (List.length md))) None None y = Ok c /\ cx_obj c = y /\ xholds c md.
Proof.
  intros Hy E N L S.
  assert (F : x_factory false MPNone (Some (Z.of_nat (List.length md))) None None (ODataArray (x_dims y)) (Some 1%Z) = Ok (XP (Some (Z.of_nat (List.length md))) (Some md))).
  { pose proof (last_dims_get vd md L) as G. rewrite <- E in G.
    assert (Q : forall n, (n = 1%Z \/ n = 2%Z) -> x_factory false MPNone (Some n) None None (ODataArray (x_dims y)) (Some 1%Z) =
       rbind (mapR (py_get (x_dims y)) (last_axes n)) (fun d => Ok (XP (Some n) (Some d)))).
    { intros n [-> | ->]; unfold x_factory, x_from_params, validate_mom_dims_and_mom_ndim, validate_dims_ndim_axes, validate_mom_ndim_and_mom_axes, validate_mom_ndim, validate_mom_dims; cbn [rbind fst snd as_mpdict];
        match goal with |- context [mapR (py_get (x_dims y)) ?l] => destruct (mapR (py_get (x_dims y)) l) eqn:X end; cbn; cbn in X; rewrite X; reflexivity. }
    rewrite Q by (destruct L as [-> | ->]; [left|right]; reflexivity). assert (La : last_axes (Z.of_nat (List.length md)) = axes_last (List.length md)) by (destruct L as [-> | ->]; reflexivity). rewrite La, G. reflexivity. }
  destruct (x_init_exact MPNone (Some (Z.of_nat (List.length md))) None None y md Hy F L) as [I _]. destruct I as (c & I1 & I2 & I3); [rewrite E; intros d Hd; apply in_app_iff; now right|exact S|]. exists c. auto.
Qed.
(* Objects with the same moment dimensions, those of the first object last: joined
   along another dimension, existing or new, entry by entry. *)
Theorem concat_labelled_values : forall axis dim d c0 cs md vd sz ns, Forall (fun c => xholds c md) (c0 :: cs) ->
  x_dims (cx_obj c0) = (vd ++ md)%list -> ~ In d md -> says axis dim (x_dims (cx_obj c0)) d -> In d vd ->
  alongside (map cx_obj (c0 :: cs)) (x_dims (cx_obj c0)) d sz ns ->
  exists c, cx_concat axis dim (c0 :: cs) = Ok c /\ xholds c md /\ x_dims (cx_obj c) = x_dims (cx_obj c0) /\ dim_size (cx_obj c) d = list_sum ns /\
    forall env k j ck, nth_error (c0 :: cs) k = Some ck -> j < nth k ns 0 -> (forall e, In e (x_dims (cx_obj c0)) -> e <> d -> env e < sz e) ->
      x_at (cx_obj c) (with_dim env d (list_sum (firstn k ns) + j)) = x_at (cx_obj ck) (with_dim env d j).
Proof.
  intros axis dim d c0 cs md vd sz ns H E Nd Sy Iv A. pose proof (Forall_inv H) as (H0 & Nm & L & Im & S2 & P). unfold cx_concat. cbn [map].
  rewrite (concat_says axis dim (cx_obj c0) (map cx_obj cs) d) by (auto; apply H0).
  destruct (x_concat_existing d (cx_obj c0) (map cx_obj cs) sz ns A) as (y & Ey & Hy & Dy & S1 & S3 & Gy); [rewrite E; apply in_app_iff; now left|]. rewrite Ey. cbn [rbind]. rewrite P. cbn [xp_ndim].
  assert (Sz0 : forall e, In e (x_dims (cx_obj c0)) -> e <> d -> dim_size (cx_obj c0) e = sz e) by (inversion A as [|? ? ? ? (_ & _ & Q & _) _]; subst; exact Q).
  destruct (init_last y md vd Hy ltac:(congruence) Nm L) as (c & C1 & C2 & C3).
  { rewrite Forall_forall in *. intros e He. assert (e <> d) by (intros ->; contradiction). rewrite S3 by auto. rewrite <- Sz0 by auto. apply S2, He. }
  exists c. split; [exact C1|]. split; [exact C3|]. rewrite C2. split; [exact Dy|]. split; [exact S1|].
  intros env k j ck Ek Hj Henv. apply (Gy env k j (cx_obj ck)); auto. change (cx_obj c0 :: map cx_obj cs) with (map cx_obj (c0 :: cs)). rewrite nth_error_map, Ek. reflexivity.
Qed.
Theorem concat_labelled_new : forall axis d c0 cs md vd sz, Forall (fun c => xholds c md) (c0 :: cs) ->
  x_dims (cx_obj c0) = (vd ++ md)%list -> ~ In d (x_dims (cx_obj c0)) ->
  Forall (fun c => Permutation (x_dims (cx_obj c)) (x_dims (cx_obj c0)) /\ forall e, In e (x_dims (cx_obj c0)) -> dim_size (cx_obj c) e = sz e) (c0 :: cs) ->
  exists c, cx_concat axis (Val d) (c0 :: cs) = Ok c /\ xholds c md /\ x_dims (cx_obj c) = d :: x_dims (cx_obj c0) /\ dim_size (cx_obj c) d = S (List.length cs) /\
    forall env k ck, nth_error (c0 :: cs) k = Some ck -> (forall e, In e (x_dims (cx_obj c0)) -> env e < sz e) ->
      x_at (cx_obj c) (with_dim env d k) = x_at (cx_obj ck) env.
Proof.
  intros axis d c0 cs md vd sz H E Nd A. pose proof (Forall_inv H) as (H0 & Nm & L & Im & S2 & P). unfold cx_concat. cbn [map].
  rewrite (concat_says axis (Val d) (cx_obj c0) (map cx_obj cs) d) by (try (apply H0); left; auto).
  destruct (x_concat_new d (cx_obj c0) (map cx_obj cs) sz Nd) as (y & Ey & Hy & Dy & S1 & S3 & Gy).
  { change (cx_obj c0 :: map cx_obj cs) with (map cx_obj (c0 :: cs)). clear -A H. revert A. generalize (x_dims (cx_obj c0)). intros l A. induction H as [|c l' (Hc & _) H IH]; [constructor|]. inversion A as [|? ? [A1 A2] A3]; subst. cbn [map]. constructor; auto. }
  rewrite Ey. cbn [rbind]. rewrite P. cbn [xp_ndim].
  destruct (init_last y md (d :: vd) Hy ltac:(rewrite Dy, E; reflexivity) Nm L) as (c & C1 & C2 & C3).
  { pose proof (Forall_inv A) as [_ A0]. rewrite Forall_forall in *. intros e He. rewrite S3 by auto. rewrite <- A0 by auto. apply S2, He. }
  exists c. split; [exact C1|]. split; [exact C3|]. rewrite C2. split; [exact Dy|]. split; [rewrite S1, map_length; reflexivity|].
  intros env k ck Ek Henv. apply (Gy env k (cx_obj ck)); auto. change (cx_obj c0 :: map cx_obj cs) with (map cx_obj (c0 :: cs)). rewrite nth_error_map, Ek. reflexivity.
Qed.
(* With the moment dimension elsewhere the result is built all the same, and its
   last dimension counts as the moments. *)
Theorem concat_labelled_order_refuted : exists c, xholds c ["mom"] /\ exists e, cx_concat Missing (Val "x") [c; c] = Ok e /\ xholds e ["x"].
Proof.
  exists (CX mom_first xmp). split.
  - repeat split; cbn; auto; try (repeat constructor; cbn; intuition (discriminate || lia)). intros d [<-|[]]. cbn. auto.
  - eexists. split; [vm_compute; reflexivity|]. repeat split; cbn; auto; try (repeat constructor; cbn; intuition (discriminate || lia)). intros d [<-|[]]. cbn. auto.
Qed.
(* nor is the moment dimension refused as the dimension to join along *)
Theorem concat_labelled_moments_refuted : exists c, xholds c ["mom"] /\ exists e, cx_concat Missing (Val "mom") [c; c] = Ok e /\ xholds e ["mom"] /\ dim_size (cx_obj e) "mom" = 2 * dim_size (cx_obj c) "mom".
Proof.
  exists (CX xval2 xmp). split.
  - repeat split; cbn; auto; try (repeat constructor; cbn; intuition (discriminate || lia)). intros d [<-|[]]. cbn. auto.
  - eexists. split; [vm_compute; reflexivity|]. split; [|reflexivity]. repeat split; cbn; auto; try (repeat constructor; cbn; intuition (discriminate || lia)). intros d [<-|[]]. cbn. auto.
Qed.
(* the second object has its dimensions in another order *)
Definition xshort : xarr := XA ["mom"; "x"] (Tensor [2; 2] (map qz [10; 20; 30; 40]%Z)).
Example concat_labelled_ex : Forall (fun c => xholds c ["mom"]) [CX xval2 xmp; CX xshort xmp] /\
  says Missing Missing (x_dims xval2) "x" /\ says (Val (AInt 0)) Missing (x_dims xval2) "x" /\ says Missing (Val "x") (x_dims xval2) "x" /\
  alongside (map cx_obj [CX xval2 xmp; CX xshort xmp]) (x_dims xval2) "x" (fun _ => 2) [3; 2] /\
  exists c, cx_concat Missing Missing [CX xval2 xmp; CX xshort xmp] = Ok c /\ x_shape (cx_obj c) = [5; 2] /\ x_at (cx_obj c) (fun d => if String.eqb d "x" then 4 else 1) = qz 40.
Proof.
  split; [repeat (apply Forall_cons; [repeat split; cbn; auto; try (repeat constructor; cbn; intuition (discriminate || lia)); intros d [<-|[]]; cbn; auto|]); constructor|].
  split; [right; left; auto|]. split; [right; right; split; [reflexivity|]; exists (AInt 0), 0; cbn; unfold is_axis; repeat split; lia|]. split; [left; auto|]. split.
  - repeat (apply Forall2_cons; [repeat split; cbn; auto; try (repeat constructor; cbn; intuition (discriminate || lia)); try (now apply perm_swap); intros d [<-|[<-|[]]] Q; cbn; congruence|]). constructor.
  - eexists. repeat split; reflexivity.
Qed.
Example concat_labelled_new_ex : ~ In "rec" (x_dims xval2) /\ exists c, cx_concat Missing (Val "rec") [CX xval2 xmp; CX xval2 xmp] = Ok c /\ x_dims (cx_obj c) = ["rec"; "x"; "mom"] /\ x_shape (cx_obj c) = [2; 3; 2] /\ cx_params c = xmp.
Proof. split; [cbn; intuition discriminate|eexists; repeat split; reflexivity]. Qed.
