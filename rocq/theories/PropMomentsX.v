(* Conversion of the moments of labelled arrays, by name. *)
From Coq Require Import String Permutation.
From Verif Require Import Base BaseLemmas ModelPush ModelKernels ModelIndex ModelAxes ModelState ModelParams ModelNd ModelWrap ModelLabel ModelMoments ModelMomentsX
  Spec SpecAxes SpecNd PropLabelled SpecLabel SpecMethodsX SpecMoments SpecMomentsX
  ProofAxes ProofArrays ProofNd PropParams ProofLabel ProofLabelMany PropLabelJack ProofMethodsX ProofMoments PropMoments PropSelect PropAssign ProofMomentsX.
Local Open Scope string_scope.
Local Open Scope nat_scope.

Lemma env_split (sz : sname -> nat) (a b : list sname) env : inside_names sz (a ++ b) env -> inside_names sz a env /\ valid (map sz b) (map env b).
Proof. intros H. split; [intros n Hn; apply H, in_or_app; now left|]. apply inside_names_valid. intros n Hn. apply H, in_or_app. now right. Qed.
Lemma own_names x md : has_moments md x -> new_names x md md.
Proof. intros (_ & N & _). split; [exact N|]. intros n Hn C. apply except_name_In in C. tauto. Qed.

(* ---- C142: moments_type ---------------------------------------------------------------- *)

(* the moments of every position are converted; dimensions keep their order, or the
   moments come last *)
Theorem moments_type_named : forall nmax to md x (to_end order : bool), has_moments md x -> Forall (fun d => 2 <= dim_size x d <= S nmax) md ->
  result_is (if to_end then (except_name (x_dims x) md ++ md)%list else x_dims x) (dim_size x)
    (fun env => central_or_raw to (named_moment x md env) (map env md)) (x_moments_type nmax to (params_for md) to_end order x).
Proof.
  intros nmax to md x to_end order HM F. pose proof HM as (Hx & Nm & Lm & Im). unfold x_moments_type. destruct (moments_params md Lm) as [-> ->]. cbn [rbind].
  apply finished_is; auto. set (outer := except_name (x_dims x) md). set (sz := dim_size x).
  destruct (one_array x md HM md (fun ts => moments_type_nd nmax to (axes_last (List.length md)) false order (arg 0 ts)) (own_names x md HM)) as (t & T1 & T2 & A & S1 & S2 & En & Res & _).
  fold outer in T2, A, S1, S2, En, Res. fold sz in T2, S1, S2, En, Res.
  assert (C : convertible nmax t (seq (List.length outer) (List.length md))).
  { split; [now rewrite seq_length|]. apply Forall_forall. intros a Ha. apply (in_map (shape_of t)) in Ha. rewrite S2 in Ha. apply in_map_iff in Ha. destruct Ha as (d & <- & Hd). rewrite Forall_forall in F. now apply F. }
  destruct (moments_type_entries nmax _ _ _ t A to order C) as (out & E & A' & So & G). apply (Res out); auto; [apply A'|now rewrite So|].
  intros env He. apply env_split in He. destruct He as [He Vm].
  assert (Vp : valid (map sz outer) (map env outer)) by now apply inside_names_valid.
  rewrite S1, S2 in G. specialize (G _ _ Vp Vm).
  assert (Q : moment_entry out (seq (List.length outer) (List.length md)) (seq 0 (List.length outer)) (map env outer) (map env md) = tget out (map env outer ++ map env md)).
  { pose proof (last_moment_entry (map sz outer) (map sz md) out (map env outer) (map env md)) as Q. rewrite !map_length in Q. apply Q; auto. now rewrite So. }
  rewrite <- Q, G, <- !converted_spec. destruct (convertible_shape nmax t _ C) as [C1 C2]. rewrite S2 in C1, C2. apply (converted_ext nmax to (map sz md)); auto.
Qed.
(* names other than "central" stand for raw moments *)
Theorem moments_type_named_other : forall nmax to p to_end order x, to <> "central" ->
  x_moments_type nmax to p to_end order x = x_moments_type nmax "raw" p to_end order x.
Proof.
  intros nmax to p to_end order x N. unfold x_moments_type. destruct (iter_dims p); [|reflexivity]. destruct (array_axes p); [|reflexivity]. cbn [rbind]. do 2 f_equal.
  unfold x_apply, apply_ufunc. destruct (unified_dim_sizes _ _); [|reflexivity]. cbn [rbind]. destruct (mapR _ _); [|reflexivity]. cbn [rbind]. now rewrite (moments_type_other_names nmax to) by exact N.
Qed.
(* converting there and back gives the array again *)
Theorem moments_type_named_round_trip : forall nmax md x to to' order order', has_moments md x -> Forall (fun d => 2 <= dim_size x d <= S nmax) md ->
  (to = "central" <-> to' <> "central") ->
  rbind (x_moments_type nmax to (params_for md) false order x) (x_moments_type nmax to' (params_for md) false order') = Ok x.
Proof.
  intros nmax md x to to' order order' HM F X. pose proof HM as (Hx & Nm & Lm & Im).
  destruct (moments_type_named nmax to md x false order HM F) as (y & -> & Hy & Dy & Sy & Ay). cbn [rbind].
  assert (HM' : has_moments md y) by (split; [exact Hy|]; rewrite Dy; auto).
  assert (F' : Forall (fun d => 2 <= dim_size y d <= S nmax) md).
  { apply Forall_forall. intros d Hd. rewrite Sy by now apply Im. rewrite Forall_forall in F. now apply F. }
  destruct (moments_type_named nmax to' md y false order' HM' F') as (z & -> & Hz & Dz & Sz & Az). f_equal. symmetry. rewrite Dy in *.
  apply x_ext; [exact Hx|exact Hz|now rewrite Dz|intros n Hn; rewrite Sz, Sy by auto; reflexivity|]. intros env He.
  assert (He' : inside_names (dim_size y) (x_dims x) env) by (intros n Hn; rewrite Sy by exact Hn; now apply He).
  rewrite (Az env He').
  assert (Fs : (List.length (map (dim_size x) md) = 1 \/ List.length (map (dim_size x) md) = 2) /\ Forall (fun n => 2 <= n <= S nmax) (map (dim_size x) md)).
  { rewrite map_length. split; [exact Lm|]. now apply Forall_map. } destruct Fs as [F1 F2].
  assert (Vm : valid (map (dim_size x) md) (map env md)) by (apply inside_names_valid; intros n Hn; apply He; now apply Im).
  rewrite <- converted_spec. rewrite (converted_ext nmax to' (map (dim_size x) md) _ (converted to (named_moment x md env))); auto.
  - rewrite (converted_back nmax to to' (map (dim_size x) md)) by auto. unfold named_moment, x_at. f_equal. apply map_ext_in. intros n Hn.
    destruct (in_dec string_dec n md) as [Q|Q]; [|now rewrite name_bind_out]. destruct (In_nth _ _ "" Q) as (k & Hk & <-). rewrite name_bind_in by (auto; now rewrite map_length). now rewrite (nth_map_dims env).
  - intros m V. rewrite converted_spec. unfold named_moment at 1. assert (Lk : List.length m = List.length md) by (rewrite (valid_length _ _ V); apply map_length).
    rewrite Ay.
    + rewrite map_name_bind by auto. rewrite <- !converted_spec. apply (converted_ext nmax to (map (dim_size x) md)); auto. intros m' V'. unfold named_moment, x_at. f_equal. apply map_ext_in. intros n Hn.
      assert (Lk' : List.length m' = List.length md) by (rewrite (valid_length _ _ V'); apply map_length).
      destruct (in_dec string_dec n md) as [Q|Q]; [|now rewrite !name_bind_out]. destruct (In_nth _ _ "" Q) as (k & Hk & <-). now rewrite !name_bind_in by auto.
    + apply xm_inside with (x := x) (env := env) in V; auto. intros n Hn. apply He. now apply except_name_In in Hn.
Qed.
(* moment dimensions that are missing; moments the kernels cannot read *)
Theorem moments_type_named_refused : forall nmax to md x to_end order, x_ok x -> List.length md = 1 \/ List.length md = 2 -> ~ incl md (x_dims x) ->
  x_moments_type nmax to (params_for md) to_end order x = Raise EValue.
Proof.
  intros nmax to md x to_end order Hx Lm N. unfold x_moments_type. destruct (moments_params md Lm) as [-> ->]. cbn [rbind]. now rewrite apply_missing.
Qed.
Theorem moments_type_named_outside : forall nmax to md x to_end env, has_moments md x -> Exists (fun d => dim_size x d < 2 \/ S nmax < dim_size x d) md ->
  x_inside x env -> x_moments_type nmax to (params_for md) to_end false x = Raise EMem.
Proof.
  intros nmax to md x to_end env HM E He. pose proof HM as (Hx & Nm & Lm & Im). unfold x_moments_type. destruct (moments_params md Lm) as [-> ->]. cbn [rbind].
  destruct (one_array x md HM md (fun ts => moments_type_nd nmax to (axes_last (List.length md)) false false (arg 0 ts)) (own_names x md HM)) as (t & T1 & T2 & A & S1 & S2 & _ & _ & Rs).
  rewrite (Rs EMem); [reflexivity|]. cbn [arg nth]. apply (moments_type_outside nmax _ _ _ t A to false (map env (except_name (x_dims x) md)) (map env md)).
  - now rewrite seq_length.
  - apply Exists_exists in E. destruct E as (d & Hd & E). apply Exists_exists. apply (in_map (dim_size x)) in Hd. rewrite <- S2 in Hd. apply in_map_iff in Hd. destruct Hd as (a & Ea & Ha). exists a. split; [exact Ha|]. now rewrite Ea.
  - rewrite S1. apply inside_names_valid. intros n Hn. apply He. now apply except_name_In in Hn.
  - rewrite S2. apply inside_names_valid. intros n Hn. apply He. now apply Im.
Qed.
