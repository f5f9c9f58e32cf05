(* Concatenation of moment arrays and of CentralMomentsArray objects (C60). *)
From Coq Require Import String Permutation.
From Verif Require Import Base BaseLemmas Checks Spec ModelKernels ModelIndex ModelAxes ModelState ModelParams ModelWrap SpecAxes ProofAxes ProofArrays ProofSpec ProofMulti PropReduce PropAxes PropParams PropWrap PropReshape.
Local Open Scope string_scope.
Local Open Scope nat_scope.

Lemma locate_spec sizes : forall k j, k < List.length sizes -> j < nth k sizes 0 -> locate sizes (list_sum (firstn k sizes) + j) = (k, j).
Proof.
  induction sizes as [|n r IH]; intros k j Hk Hj; [cbn in Hk; lia|]. destruct k as [|k]; cbn [firstn list_sum nth locate] in *.
  - change (list_sum [] + j) with j. destruct (Nat.ltb_spec j n); [reflexivity|lia].
  - change (list_sum (n :: firstn k r)) with (n + list_sum (firstn k r)). destruct (Nat.ltb_spec (n + list_sum (firstn k r) + j) n); [lia|].
    replace (n + list_sum (firstn k r) + j - n) with (list_sum (firstn k r) + j) by lia. rewrite IH by (cbn in Hk; lia || exact Hj). reflexivity.
Qed.
Lemma upd_mid {T} (p : list T) x y q : upd (p ++ x :: q) (List.length p) y = (p ++ y :: q)%list.
Proof. induction p as [|a p IH]; [reflexivity|]. cbn [app List.length upd]. now rewrite IH. Qed.
Lemma nth_middle' (p : list nat) x q : nth (List.length p) (p ++ x :: q) 0 = x.
Proof. rewrite app_nth2, Nat.sub_diag by lia. reflexivity. Qed.
(* Arrays of shapes p, n_k, q joined along that axis: entry j of the k-th array
   stands behind those of the arrays before it. *)
Theorem concatenate_entries : forall ts ns p q z, ts <> [] -> Forall2 (fun t n => tensor_ok t /\ tshape t = (p ++ n :: q)%list) ts ns ->
  is_axis (List.length p + S (List.length q)) z (List.length p) ->
  exists t, np_concatenate z ts = Ok t /\ tensor_ok t /\ tshape t = (p ++ list_sum ns :: q)%list /\
    forall k i1 j i2, k < List.length ts -> j < nth k ns 0 -> valid p i1 -> valid q i2 ->
      tget t (i1 ++ (list_sum (firstn k ns) + j) :: i2) = tget (nth k ts (Tensor [] [])) (i1 ++ j :: i2).
Proof.
  intros ts ns p q z Ne F A. unfold np_concatenate. destruct ts as [|t0 ts0] eqn:Et; [congruence|]. rewrite <- Et in *. clear Ne.
  assert (S0 : exists n0, tshape t0 = (p ++ n0 :: q)%list) by (rewrite Et in F; inversion F as [|? n0 ? ? [_ H]]; subst; eauto). destruct S0 as [n0 S0].
  unfold tndim. rewrite S0, app_length. cbn [List.length]. rewrite (proj2 (np_normalize_ok z _ _) A). cbn [rbind]. rewrite !upd_mid.
  assert (Al : forallb (fun u => nats_eqb (upd (tshape u) (List.length p) 0) (p ++ 0 :: q)) ts = true).
  { clear -F. induction F as [|t n ts ns [_ H] F IH]; [reflexivity|]. cbn [forallb]. rewrite H, upd_mid, nats_eqb_refl. exact IH. }
  rewrite Al. assert (Sz : map (fun u => nth (List.length p) (tshape u) 0) ts = ns).
  { clear -F. induction F as [|t n ts ns [_ H] F IH]; [reflexivity|]. cbn [map]. rewrite H, IH. now rewrite nth_middle'. }
  rewrite Sz. eexists. split; [reflexivity|]. split; [apply tabulate_ok|]. split; [reflexivity|]. intros k i1 j i2 Hk Hj V1 V2.
  pose proof (valid_length _ _ V1) as L1. rewrite (Forall2_len _ _ _ F) in Hk.
  assert (B : list_sum (firstn k ns) + j < list_sum ns).
  { rewrite <- (firstn_skipn k ns) at 2. rewrite list_sum_app. assert (j < list_sum (skipn k ns)); [|lia].
    destruct (skipn k ns) as [|x r] eqn:X; [apply (f_equal (@List.length nat)) in X; rewrite skipn_length in X; cbn in X; lia|].
    assert (nth k ns 0 = x); [|change (list_sum (x :: r)) with (x + list_sum r); lia]. rewrite <- (firstn_skipn k ns), X, app_nth2; rewrite firstn_length_le by lia; [|lia]. now rewrite Nat.sub_diag. }
  rewrite tget_tabulate by (apply Forall2_app; [exact V1|constructor; assumption]). rewrite <- L1. rewrite nth_middle'.
  rewrite locate_spec by assumption. cbn [fst snd]. rewrite upd_mid. reflexivity.
Qed.
(* other shapes cannot be joined: ValueError *)
Theorem concatenate_raises : forall z ts, 
  (forall a, (exists t, In t ts) -> (forall t, In t ts -> is_axis (tndim t) z a) -> exists t u, In t ts /\ In u ts /\ upd (tshape t) a 0 <> upd (tshape u) a 0) ->
  np_concatenate z ts = Raise EValue.
Proof.
  intros z ts H. unfold np_concatenate. destruct ts as [|t0 ts0] eqn:Et; [reflexivity|]. rewrite <- Et in *.
  destruct (np_normalize_axis_index z (Z.of_nat (tndim t0))) as [a|e] eqn:E; cbn [rbind]; [|now rewrite (np_normalize_err _ _ _ E)].
  apply np_normalize_ok in E. destruct (forallb _ ts) eqn:Fb; [|reflexivity]. exfalso. rewrite forallb_forall in Fb.
  assert (Eq : forall t, In t ts -> upd (tshape t) a 0 = upd (tshape t0) a 0) by (intros t Ht; apply nats_eqb_eq; apply Fb; exact Ht).
  destruct (H a) as (t & u & Ht & Hu & Ne); [exists t0; rewrite Et; now left| |apply Ne; rewrite (Eq t Ht), (Eq u Hu); reflexivity].
  intros t Ht. specialize (Eq t Ht). apply (f_equal (@List.length nat)) in Eq. rewrite !upd_length in Eq. unfold tndim in *. now rewrite Eq.
Qed.

(* ---- objects -------------------------------------------------------------------------- *)

Lemma init_ndim t vs ms : tensor_ok t -> tshape t = (vs ++ ms)%list -> List.length ms = 1 \/ List.length ms = 2 -> Forall (fun n => 2 <= n) ms ->
  exists c, c_init MPNone (Some (Z.of_nat (List.length ms))) None t = Ok c /\ c_obj c = t /\ holds c vs ms.
Proof.
  intros Ht Es L M2. set (c := CM t (AP (Some (Z.of_nat (List.length ms))) (Some (axes_last (List.length ms))))).
  assert (Hc : holds c vs ms) by (repeat split; auto). exists c. split; [|split; [reflexivity|exact Hc]].
  destruct (init_same c vs ms t vs Hc Ht Es) as [I _]. unfold c, as_arg in I. cbn [c_params ap_ndim ap_axes] in I. change (Ok c) with (Ok (CM t (AP (Some (Z.of_nat (List.length ms))) (Some (axes_last (List.length ms)))))). rewrite <- I. unfold c_init.
  assert (E : array_factory false MPNone (Some (Z.of_nat (List.length ms))) None (Some 1%Z) =
    array_factory false (MPArrOpt (Some (Z.of_nat (List.length ms))) (Some (axes_last (List.length ms)))) None None (Some 1%Z)) by (destruct L as [-> | ->]; reflexivity).
  now rewrite E.
Qed.
(* cs are objects with moment shape ms and value shapes p, n_k, q *)
Definition stackable (cs : list cmarray) (ns p q ms : list nat) : Prop := cs <> [] /\ Forall2 (fun c n => holds c (p ++ n :: q) ms) cs ns.
Definition named (axis : option Z) (n a : nat) : Prop := match axis with Some z => is_axis n z a | None => a = 0 /\ 0 < n end.
(* Along a value axis: the k-th object's moment arrays stand behind those of the
   objects before it. *)
Theorem concat_values : forall cs ns p q ms axis, stackable cs ns p q ms ->
  named axis (List.length p + S (List.length q) + List.length ms) (List.length p) ->
  exists c, c_concat axis cs = Ok c /\ holds c (p ++ list_sum ns :: q) ms /\
    forall k i1 j i2 midx ck, nth_error cs k = Some ck -> j < nth k ns 0 -> valid p i1 -> valid q i2 -> valid ms midx ->
      mom_entry c (i1 ++ (list_sum (firstn k ns) + j) :: i2) midx = mom_entry ck (i1 ++ j :: i2) midx.
Proof.
  intros cs ns p q ms axis (Ne & F) A. unfold c_concat. destruct cs as [|c0 cs0] eqn:Ec; [congruence|]. rewrite <- Ec in *. clear Ne.
  assert (H0 : exists n0, holds c0 (p ++ n0 :: q) ms) by (rewrite Ec in F; inversion F; subst; eauto). destruct H0 as [n0 H0].
  unfold concat_arrays. set (z := match axis with Some a => a | None => 0%Z end).
  assert (Az : is_axis (List.length p + S (List.length (q ++ ms))) z (List.length p)).
  { rewrite app_length. replace (List.length p + S (List.length q + List.length ms)) with (List.length p + S (List.length q) + List.length ms) by lia.
    destruct axis as [a|]; [exact A|]. destruct A as [A _]. unfold z, is_axis. lia. }
  assert (Ft : Forall2 (fun t n => tensor_ok t /\ tshape t = (p ++ n :: q ++ ms)%list) (map c_obj cs) ns).
  { clear -F. induction F as [|c n cs ns (Ho & Hs & _) F IH]; cbn [map]; constructor; auto. split; [exact Ho|]. unfold c_shape in Hs. now rewrite Hs, <- app_assoc. }
  destruct (concatenate_entries (map c_obj cs) ns p (q ++ ms) z) as (t & Et & Ht & St & Gt); [rewrite Ec; discriminate|exact Ft|exact Az|]. rewrite Et. cbn [rbind].
  pose proof H0 as (_ & _ & L & M2 & P). rewrite P. cbn [ap_ndim].
  destruct (init_ndim t (p ++ list_sum ns :: q) ms Ht) as (c & Ei & Eo & Hc); [rewrite St, <- app_assoc; reflexivity|exact L|exact M2|]. exists c. split; [exact Ei|]. split; [exact Hc|].
  intros k i1 j i2 midx ck Hk Hj V1 V2 Vm. assert (Lk : k < List.length cs) by (apply nth_error_Some; congruence).
  unfold mom_entry. rewrite Eo, <- !app_assoc. cbn [app]. rewrite Gt; [|now rewrite map_length|exact Hj|exact V1|now apply Forall2_app].
  change (Tensor [] []) with (c_obj (CM (Tensor [] []) mp1)). rewrite map_nth. now rewrite (nth_error_nth _ _ _ Hk).
Qed.
Lemma blocks_in_order {C T} (f : C -> nat -> T) (c : C) cs ns : List.length cs = List.length ns ->
  (forall k j ck, nth_error cs k = Some ck -> j < nth k ns 0 -> f c (list_sum (firstn k ns) + j) = f ck j) ->
  map (f c) (seq 0 (list_sum ns)) = flat_map (fun cn => map (f (fst cn)) (seq 0 (snd cn))) (combine cs ns).
Proof.
  intros L G.
  assert (Go : forall cs' ns' k0, List.length cs' = List.length ns' -> (forall k, nth_error cs' k = nth_error cs (k0 + k)) -> (forall k, k < List.length ns' -> nth k ns' 0 = nth (k0 + k) ns 0) ->
     (forall k, k <= List.length ns' -> list_sum (firstn (k0 + k) ns) = list_sum (firstn k0 ns) + list_sum (firstn k ns')) ->
     map (f c) (seq (list_sum (firstn k0 ns)) (list_sum ns')) = flat_map (fun cn => map (f (fst cn)) (seq 0 (snd cn))) (combine cs' ns')).
  { induction cs' as [|c1 cs' IH]; intros [|n1 ns'] k0 L' Hc Hn Hs; try discriminate; [reflexivity|]. cbn [combine flat_map fst snd].
    change (list_sum (n1 :: ns')) with (n1 + list_sum ns'). rewrite seq_app, map_app. f_equal.
    - rewrite <- (Nat.add_0_r (list_sum (firstn k0 ns))), <- seq_shift_add, map_map. apply map_ext_in. intros j Hj. apply in_seq in Hj. apply (G k0 j c1).
      + specialize (Hc 0). rewrite Nat.add_0_r in Hc. now rewrite <- Hc.
      + specialize (Hn 0). rewrite Nat.add_0_r in Hn. cbn in Hn. rewrite <- Hn by lia. lia.
    - assert (S1 : list_sum (firstn (S k0) ns) = list_sum (firstn k0 ns) + n1).
      { specialize (Hs 1 ltac:(cbn; lia)). rewrite Nat.add_1_r in Hs. rewrite Hs. change (list_sum (firstn 1 (n1 :: ns'))) with (n1 + 0). lia. }
      rewrite <- S1. apply IH.
      + cbn in L'. lia.
      + intros k. specialize (Hc (S k)). cbn [nth_error] in Hc. rewrite Hc. f_equal. lia.
      + intros k Hk. specialize (Hn (S k)). cbn [nth List.length] in Hn. rewrite Hn by lia. f_equal. lia.
      + intros k Hk. specialize (Hs (S k)). cbn [List.length] in Hs. replace (S k0 + k) with (k0 + S k) by lia. rewrite Hs by lia. change (list_sum (firstn (S k) (n1 :: ns'))) with (n1 + list_sum (firstn k ns')). lia. }
  apply (Go cs ns 0 L); auto.
Qed.
(* The order of the objects is kept and nothing is lost: the moment arrays along the
   axis are those of the objects one after the other. *)
Theorem concat_rows : forall cs ns p q ms axis c i1 i2 midx, stackable cs ns p q ms ->
  named axis (List.length p + S (List.length q) + List.length ms) (List.length p) -> c_concat axis cs = Ok c ->
  valid p i1 -> valid q i2 -> valid ms midx ->
  map (fun j => mom_entry c (i1 ++ j :: i2) midx) (seq 0 (list_sum ns)) =
  flat_map (fun cn => map (fun j => mom_entry (fst cn) (i1 ++ j :: i2) midx) (seq 0 (snd cn))) (combine cs ns).
Proof.
  intros cs ns p q ms axis c i1 i2 midx St A E V1 V2 Vm. destruct (concat_values _ _ _ _ _ _ St A) as (c' & E' & _ & G). assert (c' = c) by congruence. subst c'.
  destruct St as (_ & F). apply (blocks_in_order (fun c j => mom_entry c (i1 ++ j :: i2) midx)); [eapply Forall2_len; eauto|]. intros k j ck Hk Hj. now apply (G k i1 j i2 midx ck).
Qed.
(* the moment arrays of an object along an axis of n positions between i1 and i2 *)
Definition rows_between {A} (P : packer A) (c : cmarray) (i1 i2 : list nat) (n : nat) : list A :=
  map (fun j => pk_pack P (fun midx => mom_entry c (i1 ++ j :: i2)%list midx)) (seq 0 n).
(* Reducing the objects one by one and then the results gives the reduction of the
   concatenation (no vanishing totals on either way). *)
Theorem concat_then_reduce : forall {A V} (K : pusher A V) ok P, moment_array K ok P ->
  forall cs ns p q axis c i1 i2, stackable cs ns p q (pk_shape P) ->
  named axis (List.length p + S (List.length q) + List.length (pk_shape P)) (List.length p) -> c_concat axis cs = Ok c ->
  valid p i1 -> valid q i2 ->
  let chunks := map (fun cn => rows_between P (fst cn) i1 i2 (snd cn)) (combine cs ns) in
  rows_between P c i1 i2 (list_sum ns) = concat chunks /\
  forall rs, mapM (reduce_data K) chunks = Some rs ->
    running_ok (map (p_wt K) rs) -> running_ok (map (p_wt K) (concat chunks)) ->
    reduce_data K rs = reduce_data K (rows_between P c i1 i2 (list_sum ns)).
Proof.
  intros A V K ok P HA cs ns p q axis c i1 i2 St Ax E V1 V2 chunks. destruct (concat_values _ _ _ _ _ _ St Ax) as (c' & E' & _ & G). assert (c' = c) by congruence. subst c'.
  destruct St as (_ & F). pose proof (Forall2_len _ _ _ F) as L.
  assert (R : rows_between P c i1 i2 (list_sum ns) = concat chunks).
  { unfold chunks, rows_between. rewrite <- flat_map_concat_map.
    apply (blocks_in_order (fun c j => pk_pack P (fun midx => mom_entry c (i1 ++ j :: i2)%list midx))); [exact L|]. intros k j ck Hk Hj.
    apply (proj1 (ma_packer K ok P HA)). intros m Vm. now apply (G k i1 j i2 m ck). }
  split; [exact R|]. intros rs Er R1 R2. rewrite R. apply (merge_chunks_of_rows K ok (ma_kernel K ok P HA)); auto.
  apply Forall_forall. intros l Hl. unfold chunks in Hl. apply in_map_iff in Hl. destruct Hl as (cn & <- & _). unfold rows_between. apply Forall_forall. intros a Ha.
  apply in_map_iff in Ha. destruct Ha as (j & <- & _). apply (ma_pack_ok K ok P HA).
Qed.
(* other value shapes: ValueError; so is an axis outside the array *)
Theorem concat_raises : forall axis cs, cs <> [] ->
  (forall a, (forall c, In c cs -> named axis (List.length (c_shape c)) a) ->
     exists c d, In c cs /\ In d cs /\ upd (c_shape c) a 0 <> upd (c_shape d) a 0) ->
  c_concat axis cs = Raise EValue.
Proof.
  intros axis cs Ne H. unfold c_concat. destruct cs as [|c0 cs0] eqn:Ec; [reflexivity|]. rewrite <- Ec in *.
  assert (E : concat_arrays axis (map c_obj cs) = Raise EValue); [|now rewrite E].
  unfold concat_arrays. apply concatenate_raises. intros a _ Ha. destruct (H a) as (c & d & Hc & Hd & N).
  - intros c Hc. specialize (Ha _ (in_map c_obj _ _ Hc)). destruct axis as [z|]; [exact Ha|]. unfold is_axis, tndim in Ha. cbn. unfold c_shape. lia.
  - exists (c_obj c), (c_obj d). repeat split; auto; now apply in_map.
Qed.
(* Nothing keeps the axis from being a moment axis: objects of order 1 become one of
   order 3 whose second moment is a weight. *)
Definition pair1 (w x : Z) : cmarray := CM (Tensor [2; 2] (map qz [w; x; w; x])) mp1.
Theorem concat_moment_axis_refuted : exists c d e, holds c [2] [2] /\ holds d [2] [2] /\
  c_concat (Some (-1)%Z) [c; d] = Ok e /\ holds e [2] [4] /\ forall i, i < 2 -> mom_entry e [i] [2] = mom_entry d [i] [0] /\ mom_entry e [i] [3] = mom_entry d [i] [1].
Proof.
  exists (pair1 3 1), (pair1 5 2). eexists. split; [repeat split; cbn; auto; repeat constructor; lia|]. split; [repeat split; cbn; auto; repeat constructor; lia|].
  split; [reflexivity|]. split; [repeat split; cbn; auto; repeat constructor; lia|]. intros [|[|i]] Hi; try (exfalso; lia); split; reflexivity.
Qed.
(* without value axes the default axis 0 is a moment axis as well *)
Theorem concat_scalars_refuted : exists c d e, holds c [] [2] /\ holds d [] [2] /\ c_concat None [c; d] = Ok e /\ holds e [] [4].
Proof.
  exists (CM (Tensor [2] [qz 3; qz 1]) mp1), (CM (Tensor [2] [qz 5; qz 2]) mp1). eexists. split; [repeat split; cbn; auto; repeat constructor; lia|].
  split; [repeat split; cbn; auto; repeat constructor; lia|]. split; [reflexivity|]. repeat split; cbn; auto; repeat constructor; lia.
Qed.
Example concat_ex : stackable [pair1 3 1; pair1 5 2; pair1 1 1] [2; 2; 2] [] [] [2] /\ named None 2 0 /\
  (exists c, c_concat None [pair1 3 1; pair1 5 2; pair1 1 1] = Ok c /\ c_shape c = [6; 2] /\ map (fun j => mom_entry c [j] [0]) (seq 0 6) = map qz [3; 3; 5; 5; 1; 1]%Z) /\
  c_concat (Some 2%Z) [pair1 3 1] = Raise EValue /\
  c_concat None [pair1 3 1; CM values3 mp1] = Raise EValue.
Proof.
  split; [split; [discriminate|repeat constructor; cbn; auto; lia]|]. split; [cbn; lia|]. split; [eexists; repeat split; reflexivity|]. split; reflexivity.
Qed.
Example concat_then_reduce_ex :
  let P := packer1 1 in let K := pusher1 5 1 in
  let chunks := map (fun cn => rows_between P (fst cn) [] [] (snd cn)) (combine [pair1 3 1; pair1 5 2] [2; 2]) in
  moment_array K (fun a => List.length a = 2) P /\ stackable [pair1 3 1; pair1 5 2] [2; 2] [] [] (pk_shape P) /\
  (exists rs, mapM (reduce_data K) chunks = Some rs /\ running_ok (map (p_wt K) rs)) /\ running_ok (map (p_wt K) (concat chunks)).
Proof.
  cbv zeta. split; [constructor; lia|]. split; [split; [discriminate|repeat constructor; cbn; auto; lia]|].
  assert (N : forall l, forallb (fun q => Qle_bool 0 (this q)) l = true -> running_ok l).
  { intros l Hl. apply nonneg_running. apply Forall_forall. intros x Hx. rewrite forallb_forall in Hl. apply Hl in Hx. now apply Qle_bool_iff in Hx. }
  split; [eexists; split; [reflexivity|]|]; apply N; vm_compute; reflexivity.
Qed.
