(* zeros_like, fill, moments_to_comoments and to_dataarray of objects of class
   CentralMomentsArray (C131, C132). *)
From Coq Require Import String DecimalString DecimalFacts DecimalNat.
From Verif Require Import Base BaseLemmas Shift ModelPush ModelPushCov ModelConvert ProofPush ProofPushCov ProofConvert ModelKernels ModelIndex ModelAxes ModelState ModelParams
  ModelNd ModelWrap ModelMethods ModelMoments ModelConstruct
  Spec SpecAxes SpecNd SpecMethods SpecMoments ProofSpec ProofAxes ProofArrays ProofMulti ProofNd PropReduce PropAxes PropNd PropNdVals PropNdValsUse PropLabelled PropConcatX PropWrap ProofMethods PropMethods
  ProofMoments PropConvert PropMoments PropSelect PropAssign PropConstruct PropConstructUse PropConstructStat Checks.
Local Notation length := List.length (only parsing).
Local Open Scope nat_scope.

Lemma nats_eqb_iff a b : nats_eqb a b = true <-> a = b.
Proof. unfold nats_eqb. destruct (list_eq_dec Nat.eq_dec a b); split; congruence. Qed.

(* ---- new objects of the same kind --------------------------------------------------------- *)

Lemma fill_holds c vs ms v : holds c vs ms -> holds (c_fill c v) vs ms /\ forall p m, valid vs p -> valid ms m -> mom_entry (c_fill c v) p m = v.
Proof.
  intros (T & S' & L & G & Pm). split.
  - split; [apply tabulate_ok|]. split; [exact S'|]. auto.
  - intros p m Vp Vm. unfold mom_entry, c_fill. cbn [c_obj]. rewrite S'. rewrite tget_tabulate by (apply Forall2_app; assumption). reflexivity.
Qed.
(* C131: zeros_like(c), c.zero() and zeros of the shape and the orders of c are the same object;
   fill puts one value everywhere *)
Theorem zeros_like_object c vs ms : holds c vs ms ->
  c_zeros_like c = Ok (c_zero c) /\ c_zeros (IIter (map (fun n => (Z.of_nat n - 1)%Z) ms)) vs = Ok (c_zero c) /\ holds (c_zero c) vs ms /\
  forall v p m, valid vs p -> valid ms m -> holds (c_fill c v) vs ms /\ mom_entry (c_fill c v) p m = v.
Proof.
  intros H. pose proof H as (T & S' & L & G & Pm). destruct (fill_holds c vs ms 0%Qc H) as [H0 Z0]. split; [|split; [|split]].
  - unfold c_zeros_like, c_wrap. rewrite factory_params. cbn [rbind].
    destruct (PropConstructUse.init_last (tabulate (c_shape c) (fun _ => 0%Qc)) vs ms (tabulate_ok _ _) S' L G (as_arg (c_params c)) None None) as [-> _]; [now rewrite factory_params, Pm|].
    unfold c_zero, c_fill. now rewrite Pm.
  - destruct (zeros_object ms vs L G) as (c0 & -> & Hc & Z). f_equal. apply (holds_ext _ _ vs ms Hc H0). intros p m Vp Vm.
    unfold c_zero. rewrite Z0 by assumption. apply Z. apply Forall2_app; assumption.
  - exact H0.
  - intros v p m Vp Vm. destruct (fill_holds c vs ms v H) as [A B]. auto.
Qed.

(* ---- moments_to_comoments ------------------------------------------------------------------- *)

(* C131: entry (i, j) is entry i + j; orders as in the function (C56) *)
Theorem object_comoments c vs n mom m0 m1 : holds c vs [S n] -> resolved mom (Z.of_nat n) (Z.of_nat m0, Z.of_nat m1) ->
  exists c', c_moments_to_comoments c [fst mom; snd mom] = Ok c' /\ holds c' vs [S m0; S m1] /\
    forall p i j, valid vs p -> i <= m0 -> j <= m1 -> mom_entry c' p [i; j] = mom_entry c p [i + j].
Proof.
  intros H R. destruct (holds_axes c vs [S n] H) as (MA & SM & SL & IA). pose proof H as (T & S' & L & G & Pm). cbn [length seq] in *. change (axes_last 1) with [(-1)%Z] in *.
  cbn [map] in SM. injection SM as SM. assert (R' : resolved mom (Z.of_nat (shape_of (c_obj c) (length vs)) - 1) (Z.of_nat m0, Z.of_nat m1)).
  { rewrite SM. replace (Z.of_nat (S n) - 1)%Z with (Z.of_nat n) by lia. exact R. }
  destruct (moments_to_comoments_entries mom (-1)%Z (length vs) (seq 0 (length vs)) (c_obj c) m0 m1 MA R') as (out & E & To & So & Go). rewrite SL in So, Go.
  assert (H1 : 1 <= m0 /\ 1 <= m1 /\ m0 + m1 <= n).
  { unfold resolved in R. cbn [fst snd] in R. lia. }
  assert (F2 : Forall (fun k => 2 <= k) [S m0; S m1]) by (constructor; [lia|]; constructor; [lia|constructor]).
  destruct (PropConstructUse.init_last out vs [S m0; S m1] To So (or_intror eq_refl) F2 (as_arg (AP (Some 2%Z) (Some (axes_last 2)))) None None eq_refl) as [Ei Hi].
  exists (CM out (AP (Some 2%Z) (Some (axes_last 2)))). split; [|split; [exact Hi|]].
  - unfold c_moments_to_comoments, raise_if_not_mom_ndim_1. rewrite Pm. cbn [ap_ndim Z.of_nat Pos.of_succ_nat rbind].
    change (array_factory false MPNone (Some 2%Z) None None) with (Ok (AP (Some 2%Z) (Some (axes_last 2)))). cbn [rbind].
    change (array_factory false (as_arg (AP (Some 1%Z) (Some [(-1)%Z]))) (Some 1%Z) None None) with (Ok (AP (Some 1%Z) (Some [(-1)%Z]))). cbn [rbind iter_axes ap_axes hd].
    rewrite E. cbn [rbind]. exact Ei.
  - intros p i j Vp Hi' Hj. unfold mom_entry at 1. cbn [c_obj]. rewrite Go by assumption. apply (holds_entry c vs [S n] p [i + j] H Vp). apply is_valid_one. lia.
Qed.
(* objects of two variables, and orders that do not fit, are refused *)
Theorem object_comoments_refused c vs ms mom : holds c vs ms ->
  (length ms = 2 \/ length mom <> 2 \/ exists n m0 m1, ms = [S n] /\ mom = [m0; m1] /\ forall out, ~ resolved (m0, m1) (Z.of_nat n) out) ->
  c_moments_to_comoments c mom = Raise EValue.
Proof.
  intros H D. pose proof H as (T & S' & L & G & Pm). unfold c_moments_to_comoments, raise_if_not_mom_ndim_1. rewrite Pm. cbn [ap_ndim].
  destruct L as [L|L]; [|rewrite L; reflexivity]. destruct ms as [|[|n] [|? ?]]; try discriminate L; [inversion G; lia|]. cbn [length Z.of_nat Pos.of_succ_nat rbind].
  change (array_factory false MPNone (Some 2%Z) None None) with (Ok (AP (Some 2%Z) (Some (axes_last 2)))). cbn [rbind].
  change (array_factory false (as_arg (AP (Some 1%Z) (Some (axes_last 1)))) (Some 1%Z) None None) with (Ok (AP (Some 1%Z) (Some [(-1)%Z]))). cbn [rbind iter_axes ap_axes hd].
  destruct (holds_axes c vs [S n] H) as (MA & SM & SL & IA). cbn [length seq map] in *. change (axes_last 1) with [(-1)%Z] in *. injection SM as SM.
  rewrite (moments_to_comoments_refused mom (-1)%Z (length vs) (seq 0 (length vs)) (c_obj c) MA); [reflexivity|].
  destruct D as [D|[D|(k & m0 & m1 & E & -> & D)]]; [discriminate D|now left|right]. injection E as <-. exists m0, m1. split; [reflexivity|].
  rewrite SM. replace (Z.of_nat (S n) - 1)%Z with (Z.of_nat n) by lia. exact D.
Qed.
(* C131: moments of values become the comoments of each value with itself *)
Theorem comoments_of_samples c vs n sam mom m0 m1 : holds_samples c vs n sam -> resolved mom (Z.of_nat n) (Z.of_nat m0, Z.of_nat m1) ->
  exists c', c_moments_to_comoments c [fst mom; snd mom] = Ok c' /\ holds_pairs c' vs m0 m1 (fun p => paired (sam p)).
Proof.
  intros [H G] R. destruct (object_comoments c vs n mom m0 m1 H R) as (c' & E & H' & G'). exists c'. split; [exact E|]. split; [exact H'|].
  assert (H1 : 1 <= m0 /\ 1 <= m1 /\ m0 + m1 <= n) by (unfold resolved in R; cbn [fst snd] in R; lia).
  intros p i j Vp Hi Hj Wp. rewrite G' by assumption. assert (EW : W2 (paired (sam p)) = W1 (sam p)) by (unfold W2, paired; now rewrite suml_map).
  rewrite EW in Wp. rewrite G by (assumption || lia).
  assert (EX : meanx (paired (sam p)) = mean1 (sam p)) by (unfold meanx; rewrite EW; unfold paired; rewrite suml_map; reflexivity).
  assert (EY : meany (paired (sam p)) = mean1 (sam p)) by (unfold meany; rewrite EW; unfold paired; rewrite suml_map; reflexivity).
  assert (C : central2 (paired (sam p)) i j = central1 (sam p) (i + j)).
  { unfold central2, central1. rewrite EW, EX, EY. f_equal. unfold paired. rewrite suml_map. apply suml_ext. intros q _. cbn [fst snd]. now rewrite qpow_add. }
  destruct i as [|[|i]], j as [|[|j]]; cbn [Nat.add comoment_entry] in *; congruence.
Qed.

(* ---- to_dataarray ------------------------------------------------------------------------------- *)

(* names given by an argument, or the default *)
Definition names_given (default : list sname) (d : option dims_arg) (l : list sname) : Prop :=
  match d with
  | None => l = default
  | Some (DStr s) => l = [s]
  | Some (DSeq k) | Some (DIter k) => l = k
  | Some DNot => False
  end.
Lemma dims_or_given default d l : names_given default d l -> dims_or default d = Ok l.
Proof. destruct d as [[s|k|k|]|]; cbn; intros; subst; reflexivity || contradiction. Qed.
Definition default_names (s : string) (k : nat) : list sname := map (numbered s) (seq 0 k).
(* the default names differ from each other *)
Lemma numbered_inj s i j : numbered s i = numbered s j -> i = j.
Proof.
  unfold numbered. intros H. assert (X : forall a b c : string, (a ++ b)%string = (a ++ c)%string -> b = c) by (clear; induction a; cbn; intros b c E; [exact E|injection E; auto]).
  apply X in H. apply (X "_"%string) in H. pose proof (NilEmpty.usu (Nat.to_uint i)) as U. rewrite H, NilEmpty.usu in U. injection U as U. symmetry. now apply Unsigned.to_uint_inj.
Qed.
Theorem default_names_distinct k l : NoDup (default_names "dim" k ++ default_names "mom" l).
Proof.
  assert (D : forall s n m, NoDup (map (numbered s) (seq m n))).
  { intros s n. induction n; intros m; cbn [seq map]; constructor; auto. intros C. apply in_map_iff in C. destruct C as (j & E & Hj). apply numbered_inj in E. apply in_seq in Hj. lia. }
  apply NoDup_app_; [apply D|apply D|]. intros z A B. apply in_map_iff in A, B. destruct A as (i & <- & _), B as (j & E & _). discriminate E.
Qed.

Lemma dataarray_params m dims vd md : m = Z.of_nat (length md) -> dims = (vd ++ md)%list -> length md = 1 \/ length md = 2 ->
  x_factory false MPNone (Some m) None None (ODataArray dims) None = Ok (XP (Some m) (Some md)).
Proof.
  intros -> -> L. pose proof (last_dims_get vd md L) as G. unfold x_factory. cbn [is_x_params as_mpdict set_ndim d_ndim d_dims d_axes setdefault kwarg].
  assert (Q : forall n, n = 1 \/ n = 2 -> x_from_params (Some (Z.of_nat n)) None None (ODataArray (vd ++ md)) None =
     rbind (mapR (py_get (vd ++ md)) (axes_last n)) (fun d => Ok (XP (Some (Z.of_nat n)) (Some d)))).
  { intros n Hn. transitivity (rbind (rbind (mapR (py_get (vd ++ md)) (axes_last n)) (fun d => Ok (d, Z.of_nat n))) (fun p => Ok (XP (Some (snd p)) (Some (fst p))))).
    - destruct Hn as [-> | ->]; reflexivity.
    - now destruct (mapR (py_get (vd ++ md)) (axes_last n)). }
  specialize (Q _ L). rewrite G in Q. exact Q.
Qed.
Lemma dim_size_seq (vd md : list sname) t vs ms : NoDup (vd ++ md) -> length vd = length vs -> length md = length ms -> tshape t = vs ++ ms ->
  map (dim_size (XA (vd ++ md) t)) vd = vs /\ map (dim_size (XA (vd ++ md) t)) md = ms.
Proof.
  intros N L1 L2 S'. set (x := XA (vd ++ md) t). assert (Hd : forall k, k < length (vd ++ md) -> dim_size x (nth k (vd ++ md) ""%string) = nth k (vs ++ ms) 0).
  { intros k Hk. unfold dim_size. unfold x_shape. cbn [x x_dims x_val]. rewrite S'. now rewrite pos_nth. }
  split; apply (nth_ext _ _ 0 0); try (now rewrite map_length); rewrite map_length; intros k Hk; rewrite (nth_map_in _ _ _ _ ""%string) by exact Hk.
  - specialize (Hd k). rewrite app_length, !app_nth1 in Hd by lia. apply Hd. lia.
  - specialize (Hd (length vd + k)). rewrite app_length in Hd. rewrite !app_nth2 in Hd by lia. replace (length vd + k - length vd) with k in Hd by lia.
    rewrite L1 in Hd at 3. replace (length vs + k - length vs) with k in Hd by lia. apply Hd. lia.
Qed.
Lemma dataarray_object c vs ms vd md : holds c vs ms -> length vd = length vs -> length md = length ms -> NoDup (vd ++ md) ->
  let d := CX (XA (vd ++ md) (c_obj c)) (XP (Some (Z.of_nat (length ms))) (Some md)) in
  xholds d md /\ cx_to_array d = Ok c /\ map (dim_size (cx_obj d)) vd = vs /\ map (dim_size (cx_obj d)) md = ms /\
  forall env, x_at (cx_obj d) env = mom_entry c (map env vd) (map env md).
Proof.
  intros H L1 L2 N d. pose proof H as (T & S' & L & G & Pm). destruct (dim_size_seq vd md (c_obj c) vs ms N L1 L2 S') as [D1 D2]. split; [|split; [|split; [|split]]].
  - split; [|split; [|split; [|split; [|split]]]].
    + split; [exact T|]. split; [exact N|]. unfold d, x_shape. cbn [cx_obj x_dims x_val]. unfold c_shape in S'. rewrite S', !app_length. lia.
    + clear -N. induction vd; [exact N|]. inversion N; auto.
    + rewrite L2. exact L.
    + intros z Hz. cbn [d cx_obj x_dims]. apply in_app_iff. now right.
    + apply (Forall_map (dim_size (cx_obj d)) (fun n => 2 <= n)). cbn [d cx_obj]. now rewrite D2.
    + cbn [d cx_params]. now rewrite L2.
  - unfold cx_to_array, d. cbn [cx_params cx_obj x_val].
    assert (Ea : x_to_array (XP (Some (Z.of_nat (length ms))) (Some md)) None = Ok (AP (Some (Z.of_nat (length ms))) (Some (axes_last (length ms))))) by (rewrite <- L2 in L |- *; destruct L as [-> | ->]; reflexivity).
    rewrite Ea. cbn [rbind]. rewrite <- Pm. now destruct c.
  - exact D1.
  - exact D2.
  - intros env. unfold x_at, mom_entry, d. cbn [cx_obj x_dims x_val]. now rewrite map_app.
Qed.
(* C132: names for the axes of values and of moments; to_array leads back *)
Theorem to_dataarray_object c vs ms dims mom_dims vd md : holds c vs ms ->
  names_given (default_names "dim" (length vs)) dims vd -> length vd = length vs ->
  names_given (default_names "mom" (length ms)) mom_dims md -> length md = length ms -> NoDup (vd ++ md) ->
  exists d, c_to_dataarray c dims mom_dims = Ok d /\ xholds d md /\ x_dims (cx_obj d) = vd ++ md /\ cx_to_array d = Ok c /\
    map (dim_size (cx_obj d)) vd = vs /\ map (dim_size (cx_obj d)) md = ms /\
    forall env, x_at (cx_obj d) env = mom_entry c (map env vd) (map env md).
Proof.
  intros H Gd L1 Gm L2 N. pose proof H as (T & S' & L & G & Pm). pose proof (dataarray_object c vs ms vd md H L1 L2 N) as D. cbv zeta in D. set (d := CX _ _) in D. exists d.
  destruct D as (D1 & D2 & D3 & D4 & D5). split; [|auto 9].
  assert (Nd : tndim (c_obj c) = length vs + length ms) by (unfold tndim; unfold c_shape in S'; rewrite S'; apply app_length).
  unfold c_to_dataarray. rewrite Pm. cbn [ap_ndim]. rewrite Nat2Z.id, Nd. replace (length vs + length ms - length ms) with (length vs) by lia. fold (default_names "dim" (length vs)) (default_names "mom" (length ms)).
  rewrite (dims_or_given _ _ _ Gd). cbn [rbind]. destruct (Nat.eqb_spec (length vd) (length vs + length ms)); [lia|]. rewrite L1, Nat.eqb_refl.
  rewrite (dims_or_given _ _ _ Gm). cbn [rbind]. rewrite L2, Nat.eqb_refl. cbn [rbind].
  rewrite (dataarray_params _ _ vd md) by (rewrite ?L2; auto). reflexivity.
Qed.
(* names for all axes: the last ones are those of the moments, mom_dims is not read *)
Theorem to_dataarray_all_names c vs ms dims mom_dims vd md : holds c vs ms ->
  names_given [] dims (vd ++ md) -> dims <> None -> length vd = length vs -> length md = length ms -> NoDup (vd ++ md) ->
  exists d, c_to_dataarray c dims mom_dims = Ok d /\ xholds d md /\ x_dims (cx_obj d) = vd ++ md /\ cx_to_array d = Ok c /\
    forall env, x_at (cx_obj d) env = mom_entry c (map env vd) (map env md).
Proof.
  intros H Gd Nn L1 L2 N. pose proof H as (T & S' & L & G & Pm). pose proof (dataarray_object c vs ms vd md H L1 L2 N) as D. cbv zeta in D. set (d := CX _ _) in D. exists d.
  destruct D as (D1 & D2 & D3 & D4 & D5). split; [|auto 9].
  assert (Nd : tndim (c_obj c) = length vs + length ms) by (unfold tndim; unfold c_shape in S'; rewrite S'; apply app_length).
  unfold c_to_dataarray. rewrite Pm. cbn [ap_ndim]. rewrite Nat2Z.id, Nd. replace (length vs + length ms - length ms) with (length vs) by lia. fold (default_names "dim" (length vs)) (default_names "mom" (length ms)).
  rewrite (dims_or_given _ dims (vd ++ md)) by (destruct dims; [exact Gd|contradiction]). cbn [rbind]. rewrite app_length, L1, L2, Nat.eqb_refl. cbn [rbind].
  rewrite (dataarray_params _ _ vd md) by (rewrite ?L2; auto). reflexivity.
Qed.
(* other numbers of names *)
Theorem to_dataarray_refused c vs ms dims mom_dims vd md : holds c vs ms ->
  names_given (default_names "dim" (length vs)) dims vd -> names_given (default_names "mom" (length ms)) mom_dims md ->
  length vd <> length vs + length ms -> length vd <> length vs \/ length md <> length ms ->
  c_to_dataarray c dims mom_dims = Raise EValue.
Proof.
  intros H Gd Gm A B. pose proof H as (T & S' & L & G & Pm).
  assert (Nd : tndim (c_obj c) = length vs + length ms) by (unfold tndim; unfold c_shape in S'; rewrite S'; apply app_length).
  unfold c_to_dataarray. rewrite Pm. cbn [ap_ndim]. rewrite Nat2Z.id, Nd. replace (length vs + length ms - length ms) with (length vs) by lia. fold (default_names "dim" (length vs)) (default_names "mom" (length ms)).
  rewrite (dims_or_given _ _ _ Gd). cbn [rbind]. destruct (Nat.eqb_spec (length vd) (length vs + length ms)); [contradiction|].
  destruct (Nat.eqb_spec (length vd) (length vs)); [|reflexivity]. rewrite (dims_or_given _ _ _ Gm). cbn [rbind]. destruct (Nat.eqb_spec (length md) (length ms)); [|reflexivity]. lia.
Qed.
(* with a template: the names of the template; to_array and to_dataarray(template) lead back
   to a labelled object whose moment dimensions are last *)
Theorem to_dataarray_template c vs ms template : holds c vs ms ->
  (x_shape template <> c_shape c -> c_to_dataarray_like c template = Raise EValue) /\
  (x_shape template = c_shape c -> forall vd md, x_dims template = vd ++ md -> length md = length ms -> NoDup (vd ++ md) -> length (x_dims template) = length (x_shape template) ->
    exists d, c_to_dataarray_like c template = Ok d /\ xholds d md /\ x_dims (cx_obj d) = x_dims template /\ cx_to_array d = Ok c /\
      forall env, x_at (cx_obj d) env = mom_entry c (map env vd) (map env md)).
Proof.
  intros H. pose proof H as (T & S' & L & G & Pm). unfold c_to_dataarray_like. rewrite Pm. cbn [ap_ndim]. split.
  - intros E. destruct (nats_eqb (x_shape template) (c_shape c)) eqn:X; [|reflexivity]. apply nats_eqb_iff in X. contradiction.
  - intros E vd md Ed L2 N Lt. replace (nats_eqb (x_shape template) (c_shape c)) with true by (symmetry; now apply nats_eqb_iff).
    rewrite E, Ed, S', !app_length in Lt. assert (L1 : length vd = length vs) by lia.
    pose proof (dataarray_object c vs ms vd md H L1 L2 N) as D. cbv zeta in D. set (d := CX _ _) in D. destruct D as (D1 & D2 & D3 & D4 & D5). exists d.
    rewrite (dataarray_params _ _ vd md) by (rewrite ?L2; auto). cbn [rbind]. rewrite Ed. split; [reflexivity|]. auto.
Qed.
Theorem to_array_and_back d md vd : xholds d md -> x_dims (cx_obj d) = vd ++ md ->
  rbind (cx_to_array d) (fun c => c_to_dataarray_like c (cx_obj d)) = Ok d.
Proof.
  intros H E. destruct (to_array_values d md vd H E) as (c & Ec & Oc & Hc & _). rewrite Ec. cbn [rbind]. pose proof H as (_ & _ & L & _ & _ & Pd).
  unfold c_to_dataarray_like. pose proof Hc as (_ & _ & _ & _ & Pm). rewrite Pm, map_length. cbn [ap_ndim].
  replace (nats_eqb (x_shape (cx_obj d)) (c_shape c)) with true by (symmetry; apply nats_eqb_iff; unfold x_shape, c_shape; now rewrite Oc).
  rewrite (dataarray_params _ _ vd md) by auto. cbn [rbind]. rewrite Oc, <- Pd. destruct d as [[dims t] p]. reflexivity.
Qed.

(* ---- multiplication -------------------------------------------------------------------------------- *)

Lemma array_over s t p : tensor_ok t -> tshape t = s -> valid s p -> fits_over s t /\ value_over t p = tget t p.
Proof.
  intros T E Vp. split.
  - unfold fits_over, tndim. rewrite E, Nat.sub_diag. split; [constructor|]. intros; now left.
  - unfold value_over. rewrite (valid_length _ _ Vp). unfold tndim. rewrite E, Nat.sub_diag. cbn [skipn]. unfold value_on. cbn [tshape]. rewrite stretched_self by exact Vp. now destruct t as [s' l]; cbn in E; subst s'.
Qed.
(* c * k assigns the weight times k: the model c_mul of C116 is this *)
Theorem multiply_is_assign {A} (P : packer A) c vs k : holds c vs (pk_shape P) ->
  exists w, c_weight c = Ok w /\ tshape w = vs /\
    c_assign_moment c [("weight"%string, tabulate (tshape w) (fun i => (tget w i * k)%Qc))] true = Ok (c_mul P c k).
Proof.
  intros H. set (ms := pk_shape P) in *. pose proof H as (T & S' & L & G & Pm). destruct (weight_name ms L G) as (at0 & I0 & E0 & W0).
  destruct (object_select c vs ms H "weight" true [] at0 I0 E0) as (w & Ew & Tw & Sw & Gw). rewrite app_nil_r in Sw.
  exists w. split; [exact Ew|]. split; [exact Sw|]. set (v := tabulate _ _).
  assert (Sv : tshape v = vs) by (unfold v; cbn; exact Sw).
  assert (Fv : fits_over (vs ++ []) v).
  { rewrite app_nil_r. unfold fits_over, tndim. rewrite Sv, Nat.sub_diag. split; [constructor|]. intros; now left. }
  destruct (object_assign c vs ms H "weight" true [] at0 v I0 E0 Fv) as (c' & E' & H' & A1 & A2). rewrite E'. f_equal.
  assert (HM : holds (c_mul P c k) vs ms).
  { split; [apply tabulate_ok|]. split; [exact S'|]. auto. }
  apply (holds_ext _ _ vs ms H' HM). intros p m Vp Vm.
  assert (Nd : tndim (c_obj c) = length vs + length ms) by (unfold tndim; unfold c_shape in S'; rewrite S'; apply app_length).
  assert (EM : mom_entry (c_mul P c k) p m = if forallb (Nat.eqb 0) m then (mom_entry c p m * k)%Qc else mom_entry c p m).
  { unfold mom_entry, c_mul. cbn [c_obj]. rewrite tget_tabulate by (rewrite S'; apply Forall2_app; assumption).
    unfold mom_ndim. fold ms. rewrite Nd. replace (length vs + length ms - length ms) with (length p) by (rewrite (valid_length _ _ Vp); lia).
    rewrite skipn_app, skipn_all, Nat.sub_diag. reflexivity. }
  rewrite EM. destruct (forallb (Nat.eqb 0) m) eqn:Em.
  - rewrite (proj1 (W0 m Vm) Em). rewrite (A1 p []) by (exact Vp || constructor). rewrite app_nil_r.
    destruct (array_over vs v p (tabulate_ok _ _) Sv Vp) as [_ ->]. unfold v. rewrite tget_tabulate by (now rewrite Sw).
    specialize (Gw p [] Vp ltac:(constructor)). rewrite app_nil_r in Gw. now rewrite Gw.
  - apply A2; [exact Vp|exact Vm|]. intros q Vq. inversion Vq; subst. intros C. symmetry in C. apply (W0 m Vm) in C. congruence.
Qed.
