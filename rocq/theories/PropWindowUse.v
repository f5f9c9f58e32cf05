(* C126: the array of windows of construct_rolling_window_array and the rolling
   reductions: reducing the windows one by one is rolling_data. *)
From Coq Require Import Permutation String.
From Verif Require Import Base ModelPush ModelKernels ModelIndex ModelAxes ModelState ModelParams ModelWrap ModelNd ModelLabel ModelWindow Spec SpecAxes SpecNd SpecLabel SpecWindow
  BaseLemmas Laws ProofSpec ProofReduce ProofRolling ProofAxes ProofArrays ProofNd ProofMulti PropReduce PropAxes PropNd PropNdUse ProofLabel PropWindow.
Local Open Scope nat_scope.

Lemma window_filter {B} (z : B) (f : B -> bool) (rows : list B) : f z = false -> forall m a,
  filter f (map (fun k => nth k rows z) (seq a m)) = filter f (skipn a (firstn (a + m) rows)).
Proof.
  intros Hz m a. rewrite <- firstn_skipn_comm. revert a. induction m as [|m IH]; intros a; [reflexivity|].
  cbn [seq map]. destruct (Nat.lt_ge_cases a (List.length rows)) as [L|L].
  - rewrite (skipn_cons rows a z L). cbn [firstn filter]. rewrite IH. reflexivity.
  - rewrite (skipn_all2 rows L). cbn [filter firstn]. rewrite nth_overflow, Hz by exact L. rewrite IH, skipn_all2 by lia.
    now rewrite firstn_nil.
Qed.
(* places before the first and after the last row are no-ops *)
Lemma window_padded {B} (z : B) (f : B -> bool) (rows : list B) w e : f z = false -> 0 < w ->
  filter f (map (fun j => let s := (Z.of_nat e + 1 + Z.of_nat j - Z.of_nat w)%Z in if ((0 <=? s) && (s <? Z.of_nat (List.length rows)))%Z%bool then nth (Z.to_nat s) rows z else z) (seq 0 w)) =
  filter f (window_at w e rows).
Proof.
  intros Hz Hw. unfold window_at.
  set (F := fun j => _).
  assert (X : forall j, (w - S e) <= j -> F j = nth (S e + j - w) rows z).
  { intros j Hj. unfold F. cbv zeta. replace (Z.of_nat e + 1 + Z.of_nat j - Z.of_nat w)%Z with (Z.of_nat (S e + j - w)) by lia. rewrite Nat2Z.id.
    rewrite (proj2 (Z.leb_le _ _)) by lia. cbn [andb]. destruct (Z.ltb_spec (Z.of_nat (S e + j - w)) (Z.of_nat (List.length rows))) as [L|L]; [reflexivity|].
    symmetry. apply nth_overflow. lia. }
  assert (Y : forall l, (forall j, In j l -> j < w - S e) -> filter f (map F l) = []).
  { induction l as [|j l IH]; intros Hl; [reflexivity|]. cbn [map filter].
    assert (E : F j = z). { unfold F. cbv zeta. assert (Hj := Hl j (or_introl eq_refl)). rewrite (proj2 (Z.leb_gt _ _)) by lia. reflexivity. }
    rewrite E, Hz. apply IH. intros i Hi. apply Hl. now right. }
  replace w with ((w - S e) + (w - (w - S e))) at 1 by lia. rewrite seq_app, map_app, filter_app, Y by (intros j Hj; apply in_seq in Hj; lia).
  cbn [app plus]. pose proof (window_filter z f rows Hz (w - (w - S e)) (S e - w)) as E.
  replace (S e - w + (w - (w - S e))) with (S e) in E by lia. rewrite <- E. f_equal.
  assert (G : forall n a, w - S e <= a -> map F (seq a n) = map (fun k => nth k rows z) (seq (S e + a - w) n)).
  { induction n as [|n IH]; intros a Ha; [reflexivity|]. cbn [seq map]. rewrite X, IH by lia. do 3 f_equal. lia. }
  rewrite G by lia. do 2 f_equal. lia.
Qed.

Lemma index_one a : index_of a [a] = 0.
Proof. exact (index_of_nth [a] 0 ltac:(repeat constructor; intros []) ltac:(cbn; lia)). Qed.
Lemma bind_one a x env : bind [a] [x] env a = x.
Proof. unfold bind. cbn. now rewrite Nat.eqb_refl. Qed.
Lemma bind_at M m env env' b : env b = env' b -> bind M m env b = bind M m env' b.
Proof. unfold bind. intros ->. reflexivity. Qed.

Section Use.
  Context {A V : Type} (K : pusher A V) (ok : A -> Prop) (P : packer A) (HM : moment_array K ok P).
  Context (mom_axes : list Z) (axis : axis_arg) (a : nat) (M : list nat) (t : tensor) (w : nat) (center : bool) (W : grid Qc).
  Hypothesis HA : axis_of_moments P mom_axes axis a M t.
  Hypothesis Hw : 0 < w.
  Hypothesis Hl : 0 < shape_of t a.
  Hypothesis HW : array_windows 0%Qc [a] [Z.of_nat w] [center] [1%Z] (of_tensor t) W.
  Let n := tndim t.
  Let shift := if center then (w - 1) / 2 else 0.
  Let off (i j : nat) : Z := (Z.of_nat (i + shift) + 1 + Z.of_nat j - Z.of_nat w)%Z.

  Lemma off_source i j : source_at (shape_of t a) (Z.of_nat w) center 1 i j = off i j.
  Proof.
    unfold source_at, off, shift. cbn [Z.ltb Z.compare]. destruct center; [|lia].
    pose proof (Nat.div_mod (w - 1) 2 ltac:(lia)). pose proof (Nat.mod_upper_bound (w - 1) 2 ltac:(lia)).
    pose proof (Z.div_mod (Z.of_nat w) 2 ltac:(lia)). pose proof (Z.mod_pos_bound (Z.of_nat w) 2 ltac:(lia)). lia.
  Qed.
  Lemma win_shape : gshape W = w :: tshape t.
  Proof.
    destruct HW as (_ & E & _). rewrite E. cbn [map app]. rewrite Nat2Z.id. f_equal. cbn [of_tensor gshape].
    etransitivity; [|apply (map_nth_seq (tshape t) 0 _ eq_refl)]. apply map_ext_in. intros b _.
    destruct (in_dec Nat.eq_dec b [a]) as [[<-|[]]|]; [|reflexivity]. unfold shape_of in Hl. rewrite index_one. cbn [nth].
    change (Z.abs_nat 1) with 1. rewrite Nat.div_1_r. lia.
  Qed.
  Lemma win_entry env2 : inside (shape_of (to_tensor W)) (seq 0 (S n)) env2 ->
    let s := off (env2 (S a)) (env2 0) in
    entry (to_tensor W) env2 = if ((0 <=? s) && (s <? Z.of_nat (shape_of t a)))%Z%bool then entry t (bind [a] [Z.to_nat s] (fun b => env2 (S b))) else 0%Qc.
  Proof.
    intros I s. pose proof win_shape as Es. destruct HW as (_ & E & H). cbn [of_tensor gshape] in H. fold (tndim t) in H. fold n in H.
    assert (En : tndim (to_tensor W) = S n) by (unfold tndim; cbn [to_tensor tshape]; rewrite Es; reflexivity).
    assert (Sh : forall b, shape_of (to_tensor W) b = match b with 0 => w | S b => shape_of t b end).
    { intros b. unfold shape_of. cbn [to_tensor tshape]. rewrite Es. destruct b; reflexivity. }
    unfold entry at 1. rewrite En. cbn [seq map]. rewrite <- seq_shift, map_map.
    change (tget (to_tensor W) ?i) with (gget 0%Qc W i).
    specialize (H (fun b => env2 (S b)) [env2 0]).
    match type of H with ?X -> ?Y -> _ => assert (H1 : X); [|assert (H2 : Y); [|specialize (H H1 H2)]] end.
    - intros b Hb. apply in_seq in Hb. assert (Q : env2 (S b) < shape_of (to_tensor W) (S b)) by (apply I, in_seq; lia). rewrite Sh in Q.
      destruct (in_dec Nat.eq_dec b [a]) as [[<-|[]]|]; [|exact Q]. unfold shape_of in Q. rewrite index_one. cbn [nth].
      change (Z.abs_nat 1) with 1. rewrite Nat.div_1_r. lia.
    - cbn [map]. rewrite Nat2Z.id. repeat constructor. assert (Q : env2 0 < shape_of (to_tensor W) 0) by (apply I, in_seq; lia). now rewrite Sh in Q.
    - destruct H as [Hi Ho]. cbn [List.length] in Hi, Ho. cbn [seq map nth] in Hi. cbn [app] in Hi, Ho.
      pose proof (off_source (env2 (S a)) (env2 0)) as Os. unfold shape_of in Os. rewrite Os in Hi. fold s in Hi, Os.
      destruct ((0 <=? s) && (s <? Z.of_nat (shape_of t a)))%Z%bool eqn:B.
      + apply andb_true_iff in B. destruct B as [B1 B2]. apply Z.leb_le in B1. apply Z.ltb_lt in B2. rewrite Hi; [reflexivity|].
        intros k Hk. assert (k = 0) by lia. subst k. cbn [nth]. rewrite Os. exact (conj B1 B2).
      + rewrite Ho; [reflexivity|]. exists 0. split; [lia|]. cbn [nth]. rewrite Os. intros [B1 B2]. apply Z.leb_le in B1. apply Z.ltb_lt in B2.
        unfold shape_of in B. now rewrite B1, B2 in B.
  Qed.
  Lemma win_ndim : tndim (to_tensor W) = S n.
  Proof. unfold tndim. cbn [to_tensor tshape]. rewrite win_shape. reflexivity. Qed.
  Lemma win_shape_of b : shape_of (to_tensor W) b = match b with 0 => w | S b => shape_of t b end.
  Proof. unfold shape_of. cbn [to_tensor tshape]. rewrite win_shape. destruct b; reflexivity. Qed.
  Lemma bind_S m envW : forall b, bind (map S M) m envW (S b) = bind M m (fun b => envW (S b)) b.
  Proof.
    revert m. clear. induction M as [|x l IH]; intros m b; [reflexivity|]. destruct m as [|y m]; [reflexivity|].
    unfold bind in *. cbn [map combine find fst]. cbn. destruct (Nat.eqb_spec x b) as [->|]; [reflexivity|]. apply IH.
  Qed.
  Lemma bind_0 m envW : bind (map S M) m envW 0 = envW 0.
  Proof. apply bind_out. intros H. apply in_map_iff in H. destruct H as (x & Hx & _). discriminate. Qed.
  (* the moments of place j of the window at position env *)
  Lemma win_moment envW : inside (shape_of (to_tensor W)) (seq 0 (S n)) envW ->
    let s := off (envW (S a)) (envW 0) in
    moment_at P (to_tensor W) (map S M) envW =
      if ((0 <=? s) && (s <? Z.of_nat (shape_of t a)))%Z%bool then moment_at P t M (bind [a] [Z.to_nat s] (fun b => envW (S b))) else p_zero K.
  Proof.
    intros I s. destruct HA as (Ht & H1 & H2 & N & SM). inversion N as [|? ? Na NM]; subst.
    assert (IN : forall m, valid (pk_shape P) m -> inside (shape_of (to_tensor W)) (seq 0 (S n)) (bind (map S M) m envW)).
    { intros m Hm b Hb. destruct b as [|b]; [rewrite bind_0; now apply I|]. rewrite bind_S, win_shape_of. rewrite <- SM in Hm.
      pose proof (valid_length _ _ Hm) as Lm. rewrite map_length in Lm. destruct (in_dec Nat.eq_dec b M) as [C|C].
      - rewrite bind_in by assumption. now apply valid_nth_index.
      - rewrite bind_out by exact C. specialize (I _ Hb). now rewrite win_shape_of in I. }
    assert (Sa : forall m, off (bind (map S M) m envW (S a)) (bind (map S M) m envW 0) = s).
    { intros m. unfold s. rewrite bind_0, bind_S, bind_out by exact Na. reflexivity. }
    unfold moment_at. destruct ((0 <=? s) && (s <? Z.of_nat (shape_of t a)))%Z%bool eqn:B.
    - apply (proj1 (ma_packer _ _ _ HM)). intros m Hm. rewrite win_entry by now apply IN. rewrite Sa, B.
      unfold entry. f_equal. apply map_ext_in. intros b _. destruct (Nat.eq_dec b a) as [->|Nb].
      + rewrite (bind_out M) by exact Na. rewrite !bind_one. reflexivity.
      + rewrite bind_out by (intros [X|[]]; congruence). rewrite bind_S. apply bind_at. now rewrite bind_out by (intros [X|[]]; congruence).
    - apply (ma_zero _ _ _ HM). intros m Hm. rewrite win_entry by now apply IN. now rewrite Sa, B.
  Qed.
  Lemma win_ok : tensor_ok (to_tensor W).
  Proof. destruct HW as (H & _). exact H. Qed.
  Lemma win_moments_in : moments_in K P M t -> moments_in K P (map S M) (to_tensor W).
  Proof.
    intros (Ht & NM & LM & SM & Hp). destruct (kernel_laws K ok (ma_kernel _ _ _ HM)) as (J & L & E).
    split; [exact win_ok|]. split; [apply FinFun.Injective_map_NoDup; [intros x y; congruence|exact NM]|].
    split; [intros b Hb; apply in_map_iff in Hb; destruct Hb as (x & <- & Hx); rewrite win_ndim; specialize (LM x Hx); unfold n; lia|].
    split; [rewrite <- SM, map_map; apply map_ext; intros b; apply win_shape_of|].
    intros env I. rewrite win_ndim in I. rewrite win_moment by exact I. cbv zeta.
    destruct ((0 <=? _) && (_ <? _))%Z%bool eqn:B; [|rewrite (l_wt_zero _ _ L); apply Qcle_refl].
    apply Hp. intros b Hb. destruct (Nat.eq_dec b a) as [->|Nb].
    - rewrite bind_one. apply andb_true_iff in B. destruct B as [B1 B2]. apply Z.leb_le in B1. apply Z.ltb_lt in B2.
      lia.
    - rewrite bind_out by (intros [X|[]]; congruence). apply in_seq in Hb. assert (Q : env (S b) < shape_of (to_tensor W) (S b)) by (apply I, in_seq; unfold n; lia).
      now rewrite win_shape_of in Q.
  Qed.
  (* the rows of the windows are the window of the rows, up to weightless ones *)
  Lemma win_rows env : inside (shape_of t) (seq 0 n) env ->
    filter (fun d => negb (qeqb (p_wt K d) 0)) (rows_along P (to_tensor W) [0] (map S M) (fun b => env (b - 1))) =
    filter (fun d => negb (qeqb (p_wt K d) 0)) (window_at w (env a + shift) (rows_along P t [a] M env)).
  Proof.
    intros I. destruct (kernel_laws K ok (ma_kernel _ _ _ HM)) as (J & L & _).
    assert (Ln : List.length (rows_along P t [a] M env) = shape_of t a) by (rewrite rows_one, map_length; apply seq_length).
    rewrite <- (window_padded (p_zero K) _ (rows_along P t [a] M env) w (env a + shift)); [|rewrite (l_wt_zero _ _ L); destruct (qeqb_spec 0%Qc 0%Qc) as [_|X]; [reflexivity|now contradiction X]|exact Hw].
    f_equal. rewrite rows_one, win_shape_of. apply map_ext_in. intros j Hj. apply in_seq in Hj.
    assert (Ba : a < n) by (destruct HA as (_ & _ & Hx & _); exact (names_axis_lt _ _ _ _ Hx)).
    rewrite win_moment.
    2: { intros b Hb. rewrite win_shape_of. apply in_seq in Hb. destruct b as [|b].
         - rewrite bind_one. lia.
         - rewrite bind_out by (intros [X|[]]; discriminate). cbn [Nat.sub]. rewrite Nat.sub_0_r. apply I, in_seq. lia. }
    cbv zeta. rewrite bind_one.
    rewrite (bind_out [0] [j] _ (S a)) by (intros [X|[]]; discriminate). cbn [Nat.sub]. rewrite Nat.sub_0_r. fold (off (env a) j).
    rewrite Ln. destruct ((0 <=? _) && (_ <? _))%Z%bool eqn:B; [|reflexivity].
    apply andb_true_iff in B. destruct B as [B1 B2]. apply Z.leb_le in B1. apply Z.ltb_lt in B2.
    rewrite rows_one. rewrite (nth_map_in _ _ _ _ 0) by (rewrite seq_length; lia). rewrite seq_nth by lia. cbn [plus].
    unfold moment_at. apply (proj1 (ma_packer _ _ _ HM)). intros m Hm. unfold entry. f_equal. apply map_ext_in. intros b _.
    apply bind_at. destruct (Nat.eq_dec b a) as [->|Nb].
    - rewrite !bind_one. reflexivity.
    - rewrite !(bind_out [a]) by (intros [X|[]]; congruence). rewrite bind_out by (intros [X|[]]; discriminate). cbn [Nat.sub]. now rewrite Nat.sub_0_r.
  Qed.
End Use.

(* rolling_data(x, window) is the reduction of the windows of x, wherever a window
   has enough rows with weight.  mom_axes' names the moment axes of the windows. *)
Theorem rolling_is_reduction_of_windows : forall {A V} (K : pusher A V) ok P, moment_array K ok P ->
  forall (window : nat) min_periods (center : bool) zero mom_axes mom_axes' mp axis a M t,
  axis_of_moments P mom_axes axis a M t -> moments_in K P M t -> 0 < window -> 0 < shape_of t a ->
  Forall2 (is_axis (S (tndim t))) mom_axes' (map S M) ->
  exists W R out,
    construct_windows 0%Qc (Scalar (Z.of_nat window)) (Val [axis]) (Scalar center) (Scalar 1%Z) None (Some (IIter mom_axes)) mp (of_tensor t) = Ok W /\
    reduce_data_nd K P mom_axes' (Some [AInt 0]) false false (to_tensor W) = Ok R /\
    rolling_data_nd K P (Z.of_nat window) min_periods center zero axis mom_axes false t = Ok out /\
    gshape W = window :: tshape t /\ tshape R = tshape t /\ gshape out = tshape t /\
    forall env, inside (shape_of t) (seq 0 (tndim t)) env ->
      let idx := map env (seq 0 (tndim t)) in
      let weights := map (fun j => p_wt K (moment_at P (to_tensor W) (map S M) (fun b => match b with 0 => j | S b => env b end))) (seq 0 window) in
      let need := Z.max (match min_periods with Some m => m | None => Z.of_nat window end) 1 in
      gget None out idx = if (need <=? Z.of_nat (nonzero_count weights))%Z then Some (tget R idx) else row_entry P zero None (map env M).
Proof.
  intros A V K ok P HM w min_p center zero mom_axes mom_axes' mp axis a M t HA Hm Hw Hl F'.
  pose proof HA as (Ht & H1 & H2 & N & SM). inversion N as [|? ? Na NM]; subst.
  assert (Ba : a < tndim t) by exact (names_axis_lt _ _ _ _ H2).
  assert (Lm : List.length mom_axes = 1 \/ List.length mom_axes = 2).
  { rewrite (same_length _ _ _ H1), <- (map_length (shape_of t)), SM. destruct HM; cbn; auto. }
  destruct (windows_of_array 0%Qc (Scalar (Z.of_nat w)) (Val [axis]) (Scalar center) (Scalar 1%Z) None (Some (IIter mom_axes)) mp [a] M [Z.of_nat w] [center] [1%Z] (of_tensor t)) as (W & EW & HW).
  - exact Ht.
  - right. exists mom_axes. split; [exact H1|]. split; [exact Lm|]. left. split; left; reflexivity.
  - split; [repeat constructor; intros []|]. split; [intros b [<-|[]]; split; assumption|]. right. exists [axis]. split; [reflexivity|]. constructor; [exact H2|constructor].
  - right. eexists. split; reflexivity.
  - right. eexists. split; reflexivity.
  - right. eexists. split; reflexivity.
  - reflexivity.
  - reflexivity.
  - reflexivity.
  - repeat constructor. lia.
  - repeat constructor. lia.
  - constructor; [exact Hl|constructor].
  - pose proof (win_moments_in K ok P HM mom_axes axis a M t w center W HA Hw Hl HW Hm) as HmW.
    pose proof (win_ndim a t w center W Hw Hl HW) as En. pose proof (win_shape_of a t w center W Hw Hl HW) as Sh.
    assert (NSM : NoDup (map S M ++ [0])).
    { apply NoDup_app_iff. destruct HmW as (_ & Nx & _). split; [exact Nx|]. split; [repeat constructor; intros []|].
      intros x Hx [<-|[]]. apply in_map_iff in Hx. destruct Hx as (y & Hy & _). discriminate. }
    destruct (reduce_array_succeeds K ok P HM (map S M) (to_tensor W) mom_axes' (Some [AInt 0]) false false [0] HmW) as (R & ER & HR).
    { rewrite En. exact F'. }
    { constructor; [|constructor]. unfold names_axis, is_axis. rewrite En. lia. }
    { exact NSM. }
    { discriminate. }
    destruct (rolling_array_windows K ok P HM w min_p center zero mom_axes axis false a M t HA Hm Hw) as (out & EO & HO).
    exists W, R, out. split; [exact EW|]. split; [exact ER|]. split; [exact EO|]. split; [exact (win_shape a t w center W Hw Hl HW)|].
    destruct HR as (_ & SR & HR). cbn [out_axes] in SR, HR. rewrite En in SR, HR.
    assert (EX : except_nat (seq 0 (S (tndim t))) [0] = seq 1 (tndim t)).
    { unfold except. cbn [seq filter]. destruct (in_dec Nat.eq_dec 0 [0]) as [_|X]; [|exfalso; apply X; now left].
      apply except_none. intros x Hx. apply in_seq in Hx. intros [X|[]]. lia. }
    rewrite EX in SR, HR. destruct HO as (_ & SO & HO). cbn [column_axes] in SO, HO.
    split; [|split].
    + rewrite SR, <- seq_shift, map_map. etransitivity; [|apply (map_nth_seq (tshape t) 0 _ eq_refl)]. apply map_ext. intros b.
      destruct (in_dec Nat.eq_dec (S b) [0]) as [[X|[]]|]; [discriminate|]. apply Sh.
    + rewrite SO. etransitivity; [|apply (map_nth_seq (tshape t) 0 _ eq_refl)]. apply map_ext. intros b. destruct (Nat.eqb_spec b a) as [->|]; reflexivity.
    + intros env I idx weights need. unfold idx.
      rewrite (HO env) by (intros b Hb; destruct (Nat.eqb_spec b a) as [->|]; now apply I).
      cbv zeta. fold need. set (win := window_at _ _ _).
      pose proof (win_rows K ok P HM mom_axes axis a M t w center W HA Hw Hl HW env I) as FR. fold win in FR.
      set (rows := rows_along P (to_tensor W) [0] (map S M) (fun b => env (b - 1))) in FR.
      assert (WE : weights = map (p_wt K) rows).
      { unfold weights, rows. rewrite rows_one, map_map, Sh. apply map_ext. intros j. f_equal. unfold moment_at. apply (proj1 (ma_packer _ _ _ HM)). intros m _.
        unfold entry. f_equal. apply map_ext. intros b. apply bind_at. destruct b as [|b].
        - rewrite bind_one. reflexivity.
        - rewrite bind_out by (intros [X|[]]; discriminate). cbn [Nat.sub]. now rewrite Nat.sub_0_r. }
      assert (CN : nonzero_count weights = nonzero_count (map (p_wt K) win)).
      { assert (G : forall l, nonzero_count (map (p_wt K) l) = List.length (filter (fun d => negb (qeqb (p_wt K d) 0)) l)).
        { induction l as [|d l IH]; [reflexivity|]. unfold nonzero_count in *. cbn [map filter]. destruct (negb _); cbn [List.length]; now rewrite IH. }
        rewrite WE, !G. now rewrite FR. }
      rewrite CN. destruct (Z.leb_spec need (Z.of_nat (nonzero_count (map (p_wt K) win)))) as [Le|_]; [|reflexivity].
      destruct (HR (fun b => env (b - 1))) as (c & Ec & Vc).
      { intros b Hb. apply in_seq in Hb. destruct b as [|b]; [lia|]. cbn [Nat.sub]. rewrite Nat.sub_0_r. destruct (in_dec Nat.eq_dec (S b) [0]) as [[X|[]]|_]; [discriminate|].
        rewrite Sh. apply I, in_seq. lia. }
      fold rows in Ec. assert (E2 : reduce_data K win = Some c).
      { rewrite <- Ec. unfold reduce_data. rewrite <- (drop_zero_weight_rows K ok (ma_kernel _ _ _ HM) win), <- (drop_zero_weight_rows K ok (ma_kernel _ _ _ HM) rows). now rewrite FR. }
      rewrite E2. cbn [row_entry]. f_equal.
      assert (X : map (fun b => env (b - 1)) (seq 1 (tndim t)) = map env (seq 0 (tndim t))).
      { rewrite <- seq_shift, map_map. apply map_ext. intros b. cbn [Nat.sub]. now rewrite Nat.sub_0_r. }
      rewrite X in Vc. rewrite Vc. f_equal. rewrite map_map. apply map_ext. intros b. cbn [Nat.sub]. now rewrite Nat.sub_0_r.
Qed.
