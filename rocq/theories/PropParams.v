(* Moment parameters: what the factories make of a parameter object and explicit
   arguments (C61), and which axis of labelled data is selected. *)
From Coq Require Import String Permutation.
From Verif Require Import Base BaseLemmas ModelIndex ModelAxes ModelState ModelParams SpecAxes ProofAxes ProofArrays.
Local Open Scope string_scope.

(* ---- vocabulary ---------------------------------------------------------------- *)

(* the axes an argument stands for *)
Definition listed (a : ints_arg) : option (list Z) := match a with IInt z => Some [z] | IIter l => Some l | INot => None end.
Definition listed_dims (a : dims_arg) : option (list sname) := match a with DStr s => Some [s] | DSeq l => Some l | _ => None end.
(* the parameter object says nothing about axes / dims *)
Definition without_axes (m : mp_arg) : Prop :=
  match m with MPNone | MPX _ _ | MPXOpt _ _ => True | MPDict d => d_axes d = None | _ => False end.
Definition without_dims (m : mp_arg) : Prop :=
  match m with MPNone | MPArr _ _ | MPArrOpt _ _ => True | MPDict d => d_dims d = None | _ => False end.
(* the number of moment dimensions said by the object *)
Definition said_ndim (m : mp_arg) : option Z :=
  match m with
  | MPNone => None
  | MPDict d => match d_ndim d with Some n => n | None => None end
  | MPParams n _ _ => n | MPArr n _ | MPX n _ => Some n | MPArrOpt n _ | MPXOpt n _ => n
  end.
Definition first_of {T} (a b : option T) : option T := match a with Some x => Some x | None => b end.
Definition one_or_two (n : Z) : Prop := n = 1%Z \/ n = 2%Z.

Lemma ndim_key m ndim : kwarg (d_ndim (set_ndim ndim (as_mpdict m))) = first_of ndim (said_ndim m).
Proof. destruct ndim; [reflexivity|]. destruct m as [|[? ? ?]| | | | |]; reflexivity. Qed.
Lemma axes_key m ndim axes : without_axes m -> kwarg (setdefault (d_axes (set_ndim ndim (as_mpdict m))) axes) = axes.
Proof. destruct m as [|[? ? ?]| | | | |], ndim; cbn; try contradiction; intros H; try rewrite H; reflexivity. Qed.
Lemma dims_key m ndim dims : without_dims m -> kwarg (setdefault (d_dims (set_ndim ndim (as_mpdict m))) dims) = dims.
Proof. destruct m as [|[? ? ?]| | | | |], ndim; cbn; try contradiction; intros H; try rewrite H; reflexivity. Qed.

(* ---- arrays --------------------------------------------------------------------- *)

Lemma from_params_axes ndim a default p :
  array_from_params ndim (Some a) default = Ok p <->
  exists l, listed a = Some l /\ one_or_two (Z.of_nat (List.length l)) /\
    (ndim = None \/ ndim = Some (Z.of_nat (List.length l))) /\ p = AP (Some (Z.of_nat (List.length l))) (Some l).
Proof.
  unfold array_from_params, validate_mom_ndim_and_mom_axes, validate_mom_axes, one_or_two.
  destruct a as [z|l|]; cbn [listed rbind].
  - cbn [List.length]. change (Z.of_nat 1) with 1%Z. destruct ndim as [m|]; cbn [rbind].
    + destruct (Z.eqb_spec 1 m) as [<-|N]; cbn [rbind fst snd].
      * split; [intros E; exists [z]; inversion E; subst; cbn; tauto|]. intros (l & E & _ & _ & ->). inversion E; subst. reflexivity.
      * split; [discriminate|]. intros (l & E & _ & [X|X] & _); inversion E; subst; [discriminate|]. inversion X. congruence.
    + split; [intros E; exists [z]; inversion E; subst; cbn; tauto|]. intros (l & E & _ & _ & ->). inversion E; subst. reflexivity.
  - destruct (Nat.eqb_spec (List.length l) 1) as [L1|L1], (Nat.eqb_spec (List.length l) 2) as [L2|L2]; cbn [orb rbind]; try (exfalso; lia).
    3: { split; [discriminate|]. intros (l' & E & O & _). inversion E; subst. lia. }
    all: destruct ndim as [m|]; cbn [rbind fst snd].
    all: try (destruct (Z.eqb_spec (Z.of_nat (List.length l)) m) as [<-|N]; cbn [rbind fst snd]).
    all: try (split; [intros E; exists l; inversion E; subst; repeat split; auto; lia|]; intros (l' & E & _ & _ & ->); inversion E; subst; reflexivity).
    all: split; [discriminate|]; intros (l' & E & _ & [X|X] & _); inversion E; subst; [discriminate|]; inversion X; congruence.
  - split; [discriminate|]. intros (l & E & _). discriminate.
Qed.

(* Explicit axes are used if the object says nothing about axes: success exactly
   for one or two axes which agree in number with what is known of ndim. *)
Theorem explicit_axes_used : forall optional m ndim a default p, without_axes m ->
  (array_factory optional m ndim (Some a) default = Ok p <->
   exists l, listed a = Some l /\ one_or_two (Z.of_nat (List.length l)) /\
     (first_of ndim (said_ndim m) = None \/ first_of ndim (said_ndim m) = Some (Z.of_nat (List.length l))) /\
     p = AP (Some (Z.of_nat (List.length l))) (Some l)).
Proof.
  intros optional m ndim a default p W. unfold array_factory.
  assert (Hn : is_array_params optional m = None) by (destruct m; cbn in W; try contradiction; reflexivity). rewrite Hn. cbv zeta.
  rewrite axes_key by exact W. rewrite ndim_key. rewrite <- (from_params_axes (first_of ndim (said_ndim m)) a default p).
  destruct optional; [|reflexivity]. unfold array_optional_from_params. destruct (first_of _ _); reflexivity.
Qed.
(* Without axes anywhere the last ones are used. *)
Theorem default_axes_last : forall m ndim default p, without_axes m -> (forall d, default = Some d -> one_or_two d) ->
  (array_factory false m ndim None default = Ok p <->
   exists n, one_or_two n /\ first_of (first_of ndim (said_ndim m)) default = Some n /\
     p = AP (Some n) (Some (if Z.eqb n 1 then [-1] else [-2; -1])%Z)).
Proof.
  intros m ndim default p W D. unfold array_factory.
  assert (Hn : is_array_params false m = None) by (destruct m; cbn in W; try contradiction; reflexivity). rewrite Hn. cbv zeta.
  rewrite axes_key by exact W. rewrite ndim_key. unfold array_from_params, validate_mom_ndim_and_mom_axes, validate_mom_ndim, is_mom_ndim, one_or_two in *.
  destruct (first_of ndim (said_ndim m)) as [n|]; cbn [first_of].
  - destruct (Z.eqb_spec n 1) as [->|N1]; [|destruct (Z.eqb_spec n 2) as [->|N2]]; cbn [orb rbind fst snd].
    + split; [intros E; exists 1%Z; inversion E; auto|]. intros (k & _ & X & ->). inversion X; subst. reflexivity.
    + split; [intros E; exists 2%Z; inversion E; auto|]. intros (k & _ & X & ->). inversion X; subst. reflexivity.
    + split; [discriminate|]. intros (k & O & X & _). inversion X; subst. lia.
  - destruct default as [d|]; cbn [rbind fst snd].
    + specialize (D d eq_refl). destruct D as [->| ->].
      * split; [intros E; exists 1%Z; inversion E; auto|]. intros (k & _ & X & ->). inversion X; subst. reflexivity.
      * split; [intros E; exists 2%Z; inversion E; auto|]. intros (k & _ & X & ->). inversion X; subst. reflexivity.
    + split; [discriminate|]. intros (k & _ & X & _). discriminate.
Qed.
(* An array parameter object is returned unchanged; explicit axes do not matter. *)
Theorem object_returned_unchanged : forall n l ndim axes default,
  array_factory false (MPArr n l) ndim axes default =
  match ndim with Some k => if Z.eqb n k then Ok (AP (Some n) (Some l)) else Raise EAssert | None => Ok (AP (Some n) (Some l)) end.
Proof. intros n l [k|] axes default; reflexivity. Qed.
(* A MomParams object hides explicit axes even if its own axes are None. *)
Theorem params_hide_axes : forall optional n a d ndim axes axes' default,
  array_factory optional (MPParams n a d) ndim axes default = array_factory optional (MPParams n a d) ndim axes' default.
Proof. intros optional n a d [k|] axes axes' default; reflexivity. Qed.
Theorem explicit_axes_ignored_refuted : exists m axes p, said_ndim m = Some 1%Z /\ axes = [0%Z] /\
  array_factory false m None (Some (IIter axes)) None = Ok p /\ ap_axes p = Some [-1]%Z /\
  (forall d n, m <> MPDict d /\ m <> MPArr n axes).
Proof. exists (MPParams (Some 1%Z) None None), [0%Z]. eexists. repeat split; try reflexivity; discriminate. Qed.
(* Whatever was passed, the result has one or two axes, unless a parameter object of
   the class was passed. *)
Theorem factory_wellformed : forall m ndim axes default p, (forall n a, m <> MPArr n a) -> (forall n a, m <> MPArrOpt n a) ->
  (forall d, default = Some d -> one_or_two d) -> array_factory false m ndim axes default = Ok p ->
  exists n l, p = AP (Some n) (Some l) /\ one_or_two n /\ Z.of_nat (List.length l) = n.
Proof.
  intros m ndim axes default p N1 N2 D E. unfold array_factory in E.
  assert (Hn : is_array_params false m = None) by (destruct m; try reflexivity; [now elim (N1 ndim0 axes0)|now elim (N2 ndim0 axes0)]).
  rewrite Hn in E. cbv zeta in E. set (nd := kwarg _) in E. set (ax := kwarg _) in E.
  assert (E' : array_from_params nd ax default = Ok p) by exact E. clear E. destruct ax as [a|].
  - apply from_params_axes in E'. destruct E' as (l & _ & O & _ & ->). eauto.
  - unfold array_from_params, validate_mom_ndim_and_mom_axes, validate_mom_ndim, is_mom_ndim, one_or_two in *.
    assert (X : forall n, n = 1%Z \/ n = 2%Z -> exists n' l, AP (Some n) (Some (last_axes n)) = AP (Some n') (Some l) /\ (n' = 1%Z \/ n' = 2%Z) /\ Z.of_nat (List.length l) = n').
    { intros n [-> | ->]; do 2 eexists; (split; [reflexivity|]); split; auto. }
    destruct nd as [n|].
    + destruct (Z.eqb_spec n 1) as [Y|], (Z.eqb_spec n 2) as [Z|]; cbn [orb rbind fst snd] in E'; try discriminate; inversion E'; apply X; auto.
    + destruct default as [d|]; [|discriminate]. cbn [rbind fst snd] in E'. inversion E'. apply X. auto.
Qed.
(* An optional object without content passes and has no number of dimensions. *)
Theorem optional_object_passes_refuted : exists m p, array_factory false m None None (Some 1%Z) = Ok p /\ ap_ndim p = None /\ axes_to_end p = Raise EKey.
Proof. exists (MPArrOpt None None). eexists. repeat split. Qed.

(* ---- labelled data ----------------------------------------------------------------- *)

Lemma validate_ndim_axes_len ndim axes default n l : (forall d, default = Some d -> one_or_two d) ->
  validate_mom_ndim_and_mom_axes ndim axes default = Ok (n, l) -> one_or_two n /\ Z.of_nat (List.length l) = n /\ (ndim = None \/ ndim = Some n).
Proof.
  intros D E. unfold validate_mom_ndim_and_mom_axes in E. destruct axes as [a|].
  - assert (P : array_from_params ndim (Some a) None = Ok (AP (Some n) (Some l))).
    { unfold array_from_params, validate_mom_ndim_and_mom_axes. destruct (validate_mom_axes a); cbn [rbind] in *; [|discriminate]. now rewrite E. }
    apply from_params_axes in P. destruct P as (l' & _ & O & K & X). inversion X; subst. auto.
  - destruct (validate_mom_ndim ndim default) as [k|] eqn:V; [|discriminate]. cbn [rbind] in E. assert (k = n /\ last_axes k = l) as [-> <-] by (split; congruence). clear E.
    unfold validate_mom_ndim, is_mom_ndim, one_or_two in *. destruct ndim as [m|].
    + destruct (Z.eqb_spec m 1) as [Y|], (Z.eqb_spec m 2) as [Z|]; cbn [orb] in V; try discriminate; inversion V; subst; cbn; auto; discriminate.
    + destruct default as [d|]; [|discriminate]. assert (d = n) by congruence. subst d. destruct (D n eq_refl) as [-> | ->]; cbn; auto.
Qed.
(* Given names are the moment dimensions; axes count but are not looked at. *)
Theorem explicit_dims_used : forall m ndim dims axes data default p, without_dims m -> 
  x_factory false m ndim (Some dims) axes data default = Ok p ->
  exists l, (listed_dims dims = Some l \/ dims = DIter l) /\ one_or_two (Z.of_nat (List.length l)) /\
    p = XP (Some (Z.of_nat (List.length l))) (Some l).
Proof.
  intros m ndim dims axes data default p W E. unfold x_factory in E.
  assert (Hn : is_x_params false m = None) by (destruct m; cbn in W; try contradiction; reflexivity). rewrite Hn in E. cbv zeta in E.
  rewrite dims_key in E by exact W. set (nd := kwarg _) in E. set (ax := kwarg _) in E. unfold x_from_params, validate_mom_dims_and_mom_ndim in E.
  assert (G : rbind (validate_dims_ndim_axes (Some dims) nd data ax) (fun p => Ok (XP (Some (snd p)) (Some (fst p)))) = Ok p ->
    exists l, (listed_dims dims = Some l \/ dims = DIter l) /\ one_or_two (Z.of_nat (List.length l)) /\ p = XP (Some (Z.of_nat (List.length l))) (Some l)).
  { unfold validate_dims_ndim_axes. destruct (validate_mom_ndim_and_mom_axes nd ax None) as [[n l]|] eqn:V; [|discriminate]. cbn [rbind fst snd].
    apply validate_ndim_axes_len in V; [|discriminate]. destruct V as (O & _ & _). unfold validate_mom_dims.
    assert (K : forall v, rbind (rbind (if Z.eqb (Z.of_nat (List.length v)) n then Ok v else Raise EValue) (fun d => Ok (d, n))) (fun p => Ok (XP (Some (snd p)) (Some (fst p)))) = Ok p ->
       one_or_two (Z.of_nat (List.length v)) /\ p = XP (Some (Z.of_nat (List.length v))) (Some v)).
    { intros v. destruct (Z.eqb_spec (Z.of_nat (List.length v)) n) as [<-|]; [|discriminate]. cbn. intros X. inversion X. auto. }
    destruct dims as [s|v|v|]; cbn [rbind listed_dims]; try discriminate; intros X; apply K in X; destruct X; eauto. }
  destruct nd as [n|]; [exact (G E)|]. destruct ax as [a|]; [exact (G E)|]. clear G.
  assert (K : forall v, rbind (rbind (validate_mom_ndim (Some (Z.of_nat (List.length v))) None) (fun n => Ok (v, n))) (fun p => Ok (XP (Some (snd p)) (Some (fst p)))) = Ok p ->
       one_or_two (Z.of_nat (List.length v)) /\ p = XP (Some (Z.of_nat (List.length v))) (Some v)).
  { intros v. unfold validate_mom_ndim, is_mom_ndim, one_or_two. destruct (Z.eqb_spec (Z.of_nat (List.length v)) 1) as [X|], (Z.eqb_spec (Z.of_nat (List.length v)) 2) as [Y|];
      cbn; try discriminate; intros Z; inversion Z; auto. }
  destruct dims as [s|v|v|]; cbn [rbind listed_dims] in *; try discriminate; apply K in E; destruct E; eauto.
Qed.

Lemma py_get_ok {T} (l : list T) z x : py_get l z = Ok x <-> exists a, is_axis (List.length l) z a /\ nth_error l a = Some x.
Proof.
  unfold py_get, is_axis. set (n := List.length l). destruct (Z.ltb_spec z 0) as [L|L].
  - destruct (Z.ltb_spec (z + Z.of_nat n) 0) as [M|M].
    + split; [discriminate|]. intros (a & (A & [B|B]) & _); lia.
    + unfold of_opt. split.
      * destruct (nth_error l (Z.to_nat (z + Z.of_nat n))) as [y|] eqn:E; [|discriminate]. intros X. inversion X; subst. exists (Z.to_nat (z + Z.of_nat n)). split; [|exact E].
        split; [lia|]. right. lia.
      * intros (a & (A & [B|B]) & E); [lia|]. replace (Z.to_nat (z + Z.of_nat n)) with a by lia. now rewrite E.
  - destruct (Z.ltb_spec z 0) as [M|M]; [lia|]. unfold of_opt. split.
    + destruct (nth_error l (Z.to_nat z)) as [y|] eqn:E; [|discriminate]. intros X. inversion X; subst. exists (Z.to_nat z). split; [|exact E].
      assert (Z.to_nat z < List.length l)%nat by (apply nth_error_Some; congruence). split; [exact H|]. left. lia.
    + intros (a & (A & [B|B]) & E); [|lia]. subst z. rewrite Nat2Z.id. now rewrite E.
Qed.
Lemma py_get_list {T} (l : list T) zs xs : mapR (py_get l) zs = Ok xs <-> Forall2 (fun z x => exists a, is_axis (List.length l) z a /\ nth_error l a = Some x) zs xs.
Proof. rewrite mapR_Forall2. split; apply Forall2_imp_; intros a b; apply py_get_ok. Qed.

(* Without names the dimensions of the data at the given axes are used. *)
Theorem dims_from_axes : forall m ndim axes data_dims default p, without_dims m -> without_axes m ->
  x_factory false m ndim None (Some axes) (ODataArray data_dims) default = Ok p ->
  exists l ds, listed axes = Some l /\ one_or_two (Z.of_nat (List.length l)) /\
    Forall2 (fun z d => exists a, is_axis (List.length data_dims) z a /\ nth_error data_dims a = Some d) l ds /\
    p = XP (Some (Z.of_nat (List.length l))) (Some ds).
Proof.
  intros m ndim axes data_dims default p W Wa E. unfold x_factory in E.
  assert (Hn : is_x_params false m = None) by (destruct m; cbn in W; try contradiction; reflexivity). rewrite Hn in E. cbv zeta in E.
  rewrite dims_key, axes_key in E by auto. set (nd := kwarg _) in E. unfold x_from_params, validate_mom_dims_and_mom_ndim in E.
  assert (E' : rbind (validate_dims_ndim_axes None nd (ODataArray data_dims) (Some axes)) (fun p => Ok (XP (Some (snd p)) (Some (fst p)))) = Ok p) by (destruct nd; exact E).
  clear E. unfold validate_dims_ndim_axes in E'. destruct (validate_mom_ndim_and_mom_axes nd (Some axes) None) as [[n l]|] eqn:V; [|discriminate]. cbn [rbind fst snd] in E'.
  assert (P : array_from_params nd (Some axes) None = Ok (AP (Some n) (Some l))) by (unfold array_from_params; rewrite V; reflexivity).
  apply from_params_axes in P. destruct P as (l' & L & O & _ & X). inversion X; subst. clear X V.
  cbn [validate_mom_dims] in E'. destruct (mapR (py_get data_dims) l') as [ds|] eqn:M; [|discriminate]. cbn in E'. inversion E'; subst.
  exists l', ds. split; [exact L|]. split; [exact O|]. split; [now apply py_get_list|reflexivity].
Qed.
(* Names and axes given together are not compared. *)
Theorem dims_and_axes_not_compared_refuted : exists data_dims axes dims p,
  x_factory false MPNone None (Some (DStr dims)) (Some (IInt axes)) (ODataArray data_dims) None = Ok p /\
  xp_dims p = Some [dims] /\ py_get data_dims axes = Ok "x" /\ dims = "mom" /\ x_to_array p (Some data_dims) = Ok (AP (Some 1%Z) (Some [1%Z])).
Proof. exists ["x"; "mom"], 0%Z, "mom". eexists. repeat split. Qed.
(* A MomParams object hides explicit names. *)
Theorem params_hide_dims : forall optional n a d ndim dims dims' axes axes' data default,
  x_factory optional (MPParams n a d) ndim dims axes data default = x_factory optional (MPParams n a d) ndim dims' axes' data default.
Proof. intros optional n a d [k|] dims dims' axes axes' data default; reflexivity. Qed.
Theorem explicit_dims_ignored_refuted : exists m dims data_dims p, said_ndim m = Some 1%Z /\
  x_factory false m None (Some (DStr dims)) None (ODataArray data_dims) None = Ok p /\ In dims data_dims /\ xp_dims p <> Some [dims].
Proof. exists (MPParams (Some 1%Z) None None), "mom", ["mom"; "x"]. eexists. repeat split; [now left|discriminate]. Qed.

(* ---- names and positions ------------------------------------------------------------ *)

Lemma smem_In x l : smem x l = true <-> In x l.
Proof. unfold smem. rewrite existsb_exists. split; [intros (y & H & E); apply String.eqb_eq in E; now subst|]. intros H. exists x. split; [exact H|apply String.eqb_refl]. Qed.
Lemma smem_false x l : smem x l = false <-> ~ In x l.
Proof. rewrite <- smem_In. destruct (smem x l); split; congruence. Qed.
Lemma position_nth l : forall x, In x l -> nth_error l (position String.eqb x l) = Some x.
Proof.
  induction l as [|y l IH]; [contradiction|]. intros x Hx. cbn [position]. destruct (String.eqb_spec x y) as [->|N]; [reflexivity|]. cbn. apply IH. destruct Hx; congruence.
Qed.
Lemma position_unique l : NoDup l -> forall x a, nth_error l a = Some x -> position String.eqb x l = a.
Proof.
  intros N x a E. assert (Hx : In x l) by (eapply nth_error_In; eauto). apply (proj1 (NoDup_nth_error l) N).
  - apply nth_error_Some. rewrite position_nth by exact Hx. discriminate.
  - rewrite position_nth by exact Hx. now rewrite E.
Qed.
Lemma get_axis_num_ok dims d a : NoDup dims -> get_axis_num dims d = Ok a <-> nth_error dims a = Some d.
Proof.
  intros N. unfold get_axis_num. destruct (smem d dims) eqn:S.
  - apply smem_In in S. split; [intros X; inversion X; subst; now apply position_nth|]. intros E. f_equal. now apply position_unique.
  - apply smem_false in S. split; [discriminate|]. intros E. exfalso. apply S. eapply nth_error_In; eauto.
Qed.
Lemma get_axis_num_err dims d e : get_axis_num dims d = Raise e -> e = EValue.
Proof. unfold get_axis_num. destruct (smem d dims); congruence. Qed.
Lemma nth_error_ok {T} (l : list T) a e x : of_opt e (nth_error l a) = Ok x <-> nth_error l a = Some x.
Proof. unfold of_opt. destruct (nth_error l a); split; congruence. Qed.
Lemma normalize_num x n (m : option Z) a : normalize_axis_index x n (option_map Z.to_nat m) = Ok a <->
  names_axis n (match m with Some k => Z.to_nat k | None => 0 end) x a.
Proof. rewrite normalize_index_ok. destruct m; reflexivity. Qed.
Lemma rbind_ok {S T} (r : res S) (f : S -> res T) t : rbind r f = Ok t <-> exists s, r = Ok s /\ f s = Ok t.
Proof. destruct r as [s|e]; cbn; split; [eauto|intros (s' & E & F); congruence|discriminate|intros (s' & E & _); discriminate]. Qed.

(* number of moment dimensions counted by complex axes *)
Definition counted (p : xparams) : nat := match xp_ndim p with Some k => Z.to_nat k | None => 0 end.
Definition is_moment (p : xparams) (d : sname) : Prop := In d (mom_dims_of p).
Lemma raise_mom_ok p d : raise_if_dim_in_mom_dims p d = Ok tt <-> ~ is_moment p d.
Proof.
  unfold raise_if_dim_in_mom_dims, is_moment, mom_dims_of. destruct (xp_dims p) as [m|]; [|split; [intros _ []|reflexivity]].
  rewrite <- smem_false. destruct (smem d m); split; congruence.
Qed.
Lemma raise_mom_cases p d : raise_if_dim_in_mom_dims p d = Ok tt \/ raise_if_dim_in_mom_dims p d = Raise EValue.
Proof. unfold raise_if_dim_in_mom_dims. destruct (xp_dims p) as [m|]; [destruct (smem d m)|]; auto. Qed.
Lemma guard_allow {T} p (allow : bool) d (r : T) (t : T) :
  guard (if allow then Ok tt else raise_if_dim_in_mom_dims p d) (Ok r) = Ok t <-> r = t /\ (allow = true \/ ~ is_moment p d).
Proof.
  destruct allow; cbn [guard rbind]; [split; [intros E; inversion E; auto|intros [-> _]; reflexivity]|].
  rewrite <- raise_mom_ok. unfold guard. destruct (raise_mom_cases p d) as [-> | ->]; cbn; split; try congruence.
  - intros E. inversion E. auto.
  - intros [-> _]. reflexivity.
  - intros [_ [X|X]]; discriminate.
Qed.

(* A selection succeeds exactly if one of axis and dim is given, names a dimension of the
   data, and that is not a moment dimension. *)
Theorem select_axis_dim_exact : forall p dims axis dim allow a d, NoDup dims ->
  (select_axis_dim p (XArr dims) axis dim Missing Missing allow = Ok (a, d) <->
   nth_error dims a = Some d /\ (allow = true \/ ~ is_moment p d) /\
   ((exists x, axis = Val x /\ dim = Missing /\ names_axis (List.length dims) (counted p) x a) \/ (axis = Missing /\ dim = Val d))).
Proof.
  intros p dims axis dim allow a d N. unfold select_axis_dim, axis_dim_defaults.
  destruct axis as [| |x], dim as [| |d0]; cbn [validate_not_none guard rbind is_missing andb negb];
    try (split; [discriminate|]; intros (_ & _ & [(x' & X & Y & _)|[X Y]]); discriminate).
  - rewrite rbind_ok. split.
    + intros ([a1 d1] & E & G). apply guard_allow in G. destruct G as [X G]. inversion X; subst. cbn [snd] in *.
      apply rbind_ok in E. destruct E as (a2 & E & X2). inversion X2; subst. apply get_axis_num_ok in E; [|exact N]. auto.
    + intros (E & G & [(x & X & _)|[_ X]]); [discriminate|]. inversion X; subst. exists (a, d). split.
      * apply get_axis_num_ok in E; [|exact N]. rewrite E. reflexivity.
      * apply guard_allow. auto.
  - rewrite rbind_ok. split.
    + intros ([a1 d1] & E & G). apply guard_allow in G. destruct G as [X G]. inversion X; subst. cbn [snd] in *.
      apply rbind_ok in E. destruct E as (a2 & E & X2). apply rbind_ok in X2. destruct X2 as (d2 & E2 & X2). inversion X2; subst.
      apply nth_error_ok in E2. apply normalize_num in E. split; [exact E2|]. split; [exact G|]. left. eauto.
    + intros (E & G & [(x' & X & _ & Nm)|[X _]]); [|discriminate]. inversion X; subst. exists (a, d). split.
      * apply rbind_ok. exists a. split; [now apply normalize_num|]. rewrite E. reflexivity.
      * apply guard_allow. auto.
Qed.
(* Anything else raises TypeError for None and ValueError otherwise. *)
Theorem select_axis_dim_raises : forall p dims axis dim allow,
  (exists r, select_axis_dim p (XArr dims) axis dim Missing Missing allow = Ok r) \/
  select_axis_dim p (XArr dims) axis dim Missing Missing allow = Raise (match axis, dim with PyNone, _ | _, PyNone => EType | _, _ => EValue end).
Proof.
  intros p dims axis dim allow. unfold select_axis_dim, axis_dim_defaults.
  destruct axis as [| |x], dim as [| |d0]; cbn [validate_not_none guard rbind is_missing andb negb]; auto.
  - destruct (get_axis_num dims d0) as [a|e] eqn:E; cbn [rbind].
    + cbn [snd]. destruct allow; cbn; eauto. destruct (raise_mom_cases p d0) as [-> | ->]; cbn; eauto.
    + apply get_axis_num_err in E. subst. auto.
  - destruct (normalize_axis_index _ _ _) as [a|e] eqn:E; cbn [rbind].
    + apply normalize_num, names_axis_lt in E. destruct (nth_error dims a) as [d|] eqn:Ed; [|apply nth_error_None in Ed; lia]. cbn [of_opt rbind snd].
      destruct allow; cbn; eauto. destruct (raise_mom_cases p d) as [-> | ->]; cbn; eauto.
    + apply normalize_index_err in E. subst. auto.
Qed.
(* Selecting by axis and by the name of that axis is the same. *)
Theorem select_by_axis_or_name : forall p dims x allow a d, NoDup dims ->
  select_axis_dim p (XArr dims) (Val x) Missing Missing Missing allow = Ok (a, d) ->
  select_axis_dim p (XArr dims) Missing (Val d) Missing Missing allow = Ok (a, d).
Proof.
  intros p dims x allow a d N E. apply select_axis_dim_exact in E; [|exact N]. apply select_axis_dim_exact; [exact N|]. destruct E as (E & G & _). auto.
Qed.
(* Defaults count only if nothing is given. *)
Theorem select_axis_dim_default : forall p dims axis dim default_axis default_dim allow,
  default_axis <> PyNone -> default_dim <> PyNone -> axis <> PyNone -> dim <> PyNone ->
  select_axis_dim p (XArr dims) axis dim default_axis default_dim allow =
  match axis, dim with
  | Missing, Missing => select_axis_dim p (XArr dims) default_axis default_dim Missing Missing allow
  | _, _ => select_axis_dim p (XArr dims) axis dim Missing Missing allow
  end.
Proof. intros p dims axis dim da dd allow H1 H2 H3 H4. destruct axis, dim, da, dd; try contradiction; reflexivity. Qed.
(* Moment dimensions last: multiples of 1j count the other dimensions. *)
Theorem complex_axis_counts_values : forall p vals mom z allow a d, NoDup (vals ++ mom) -> counted p = List.length mom ->
  mom_dims_of p = mom ->
  (select_axis_dim p (XArr (vals ++ mom)) (Val (AComplex z)) Missing Missing Missing allow = Ok (a, d) <->
   is_axis (List.length vals) z a /\ nth_error vals a = Some d).
Proof.
  intros p vals mom z allow a d N C M. rewrite select_axis_dim_exact by exact N. unfold names_axis. rewrite C, app_length, Nat.add_sub. split.
  - intros (E & _ & [(x & X & _ & A)|[X _]]); [|discriminate]. inversion X; subst. split; [exact A|]. rewrite nth_error_app1 in E by apply A. exact E.
  - intros [A E]. split; [rewrite nth_error_app1; [exact E|apply A]|]. split; [|eauto]. right. unfold is_moment. rewrite M.
    apply NoDup_app_parts in N. destruct N as (_ & _ & N). apply N. eapply nth_error_In; eauto.
Qed.
(* Moment dimension first: the last value dimension is not -1j. *)
Theorem complex_axis_not_last_refuted : exists p dims a d, mom_dims_of p = ["mom"] /\ counted p = 1%nat /\ dims = ["mom"; "x"; "y"] /\
  select_axis_dim p (XArr dims) (Val (AComplex (-1))) Missing Missing Missing false = Ok (a, d) /\ d = "x".
Proof. exists (XP (Some 1%Z) (Some ["mom"])). do 3 eexists. repeat split. Qed.

(* several axes *)
Lemma check_dim_ok p allow ds : check_dim p allow ds = Ok tt <-> allow = true \/ forall d, In d ds -> ~ is_moment p d.
Proof.
  unfold check_dim. destruct allow; cbn [negb andb]; [tauto|]. destruct (existsb _ ds) eqn:E.
  - split; [discriminate|]. intros [X|X]; [discriminate|]. apply existsb_exists in E. destruct E as (d & H & E). apply smem_In in E. now elim (X d).
  - split; [|reflexivity]. intros _. right. intros d H X. apply smem_In in X. rewrite <- not_true_iff_false in E. apply E. apply existsb_exists. eauto.
Qed.
Lemma guard_check {T} p allow ds (r t : T) : guard (check_dim p allow ds) (Ok r) = Ok t <-> r = t /\ (allow = true \/ forall d, In d ds -> ~ is_moment p d).
Proof.
  rewrite <- check_dim_ok. unfold guard. destruct (check_dim p allow ds) as [[]|] eqn:E; cbn; split; try congruence.
  - intros X. inversion X. auto.
  - intros [-> _]. reflexivity.
  - intros [_ X]. discriminate.
Qed.
Lemma axis_nums (dims ds : list sname) axes : NoDup dims -> mapR (get_axis_num dims) ds = Ok axes <-> Forall2 (fun a d => nth_error dims a = Some d) axes ds.
Proof.
  intros N. rewrite mapR_Forall2. split; intros F; induction F; constructor; auto; now apply get_axis_num_ok.
Qed.
Lemma nth_dims (dims : list sname) axes (ds : list sname) : mapR (fun i => of_opt EIndex (nth_error dims i)) axes = Ok ds <-> Forall2 (fun a d => nth_error dims a = Some d) axes ds.
Proof. rewrite mapR_Forall2. split; apply Forall2_imp_; intros a d; apply nth_error_ok. Qed.

Theorem select_mult_exact : forall p dims axis dim allow axes ds, NoDup dims ->
  (select_axis_dim_mult p (XArr dims) axis dim Missing Missing allow = Ok (axes, ds) <->
   Forall2 (fun a d => nth_error dims a = Some d) axes ds /\ (allow = true \/ forall d, In d ds -> ~ is_moment p d) /\
   ((axis = Missing /\ dim = PyNone /\ ds = filter (fun d => negb (smem d (mom_dims_of p))) dims) \/
    (axis = Missing /\ exists x, dim = Val x /\ (listed_dims x = Some ds \/ x = DIter ds)) \/
    (dim = Missing /\ axis = PyNone /\ axes = seq 0 (List.length dims - counted p)) \/
    (dim = Missing /\ exists x, axis = Val x /\ NoDup axes /\ Forall2 (names_axis (List.length dims) (counted p)) x axes))).
Proof.
  intros p dims axis dim allow axes ds N. unfold select_axis_dim_mult, axis_dim_defaults.
  assert (CN : (match option_map Z.to_nat (xp_ndim p) with Some m => m | None => 0 end) = counted p) by (unfold counted; destruct (xp_ndim p); reflexivity).
  destruct axis as [| |x], dim as [| |d0]; cbn [guard rbind is_missing andb negb];
    try (split; [discriminate|]; intros (_ & _ & [(X & Y & _)|[(X & y & Y & _)|[(X & Y & _)|(X & y & Y & _)]]]); discriminate).
  - rewrite rbind_ok. split.
    + intros ([a1 d1] & E & G). apply guard_check in G. destruct G as [X G]. inversion X; subst. cbn [snd] in *.
      apply rbind_ok in E. destruct E as (a2 & E & X2). inversion X2; subst. apply axis_nums in E; [|exact N]. split; [exact E|]. split; [exact G|]. left. auto.
    + intros (E & G & [(_ & _ & ->)|[(_ & y & Y & _)|[(X & Y & _)|(X & y & Y & _)]]]); try discriminate. eexists (_, _). split.
      * apply rbind_ok. exists axes. split; [now apply axis_nums|reflexivity].
      * apply guard_check. auto.
  - rewrite rbind_ok. split.
    + intros ([a1 d1] & E & G). apply guard_check in G. destruct G as [X G]. inversion X; subst. cbn [snd] in *.
      apply rbind_ok in E. destruct E as (l & El & E). apply rbind_ok in E. destruct E as (a2 & E & X2). inversion X2; subst.
      apply axis_nums in E; [|exact N]. split; [exact E|]. split; [exact G|]. right. left. split; [reflexivity|]. exists d0. split; [reflexivity|].
      destruct d0; cbn in *; inversion El; auto.
    + intros (E & G & [(_ & X & _)|[(_ & y & Y & L)|[(X & Y & _)|(X & y & Y & _)]]]); try discriminate. inversion Y; subst. eexists (_, _). split.
      * apply rbind_ok. exists ds. split; [destruct y; destruct L as [L|L]; inversion L; reflexivity|]. apply rbind_ok. exists axes. split; [now apply axis_nums|reflexivity].
      * apply guard_check. auto.
  - unfold normalize_axis_tuple. rewrite CN. cbn [rbind]. rewrite rbind_ok. split.
    + intros ([a1 d1] & E & G). apply guard_check in G. destruct G as [X G]. inversion X; subst. cbn [snd] in *.
      apply rbind_ok in E. destruct E as (l & El & E). inversion E; subst. apply nth_dims in El. split; [exact El|]. split; [exact G|]. right. right. left. auto.
    + intros (E & G & [(X & _)|[(X & _)|[(_ & _ & ->)|(_ & y & Y & _)]]]); try discriminate. eexists (_, _). split.
      * apply rbind_ok. exists ds. split; [now apply nth_dims|reflexivity].
      * apply guard_check. auto.
  - rewrite rbind_ok. split.
    + intros ([a1 d1] & E & G). apply guard_check in G. destruct G as [X G]. inversion X; subst. cbn [snd] in *.
      apply rbind_ok in E. destruct E as (l & El & E). apply rbind_ok in E. destruct E as (l2 & E2 & E). inversion E; subst. apply nth_dims in E2.
      apply normalize_tuple_ok in El. destruct El as [F Nd]. split; [exact E2|]. split; [exact G|]. right. right. right. split; [reflexivity|]. exists x. split; [reflexivity|].
      split; [exact Nd|]. unfold counted. destruct (xp_ndim p); exact F.
    + intros (E & G & [(X & _)|[(X & _)|[(_ & X & _)|(_ & y & Y & Nd & F)]]]); try discriminate. inversion Y; subst. eexists (_, _). split.
      * apply rbind_ok. exists axes. split; [apply normalize_tuple_ok; split; [|exact Nd]; unfold counted in F; destruct (xp_ndim p); exact F|].
        apply rbind_ok. exists ds. split; [now apply nth_dims|reflexivity].
      * apply guard_check. auto.
Qed.
(* dim=None selects the dimensions that are not moment dimensions *)
Theorem dim_none_selects_values : forall p dims, NoDup dims ->
  exists axes, select_axis_dim_mult p (XArr dims) Missing PyNone Missing Missing false = Ok (axes, filter (fun d => negb (smem d (mom_dims_of p))) dims) /\
  Forall2 (fun a d => nth_error dims a = Some d) axes (filter (fun d => negb (smem d (mom_dims_of p))) dims).
Proof.
  intros p dims N. set (ds := filter _ dims). assert (A : exists axes, Forall2 (fun a d => nth_error dims a = Some d) axes ds).
  { assert (I : forall d, In d ds -> exists a, nth_error dims a = Some d) by (intros d H; apply filter_In in H; apply In_nth_error; tauto).
    clearbody ds. induction ds as [|d ds IH]; [exists []; constructor|]. destruct IH as [axes F]; [intros; apply I; now right|].
    destruct (I d (or_introl eq_refl)) as [a E]. exists (a :: axes). now constructor. }
  destruct A as [axes F]. exists axes. split; [|exact F]. apply select_mult_exact; [exact N|]. split; [exact F|]. split; [|left; auto].
  right. intros d H. apply filter_In in H. destruct H as [_ H]. intros X. apply smem_In in X. rewrite X in H. discriminate.
Qed.
(* axis=None is the same if the moment dimensions are last, otherwise it raises or
   selects too few *)
Theorem axis_none_moments_last : forall p vals mom, NoDup (vals ++ mom) -> counted p = List.length mom -> mom_dims_of p = mom ->
  select_axis_dim_mult p (XArr (vals ++ mom)) PyNone Missing Missing Missing false = Ok (seq 0 (List.length vals), vals) /\
  select_axis_dim_mult p (XArr (vals ++ mom)) Missing PyNone Missing Missing false = Ok (seq 0 (List.length vals), vals).
Proof.
  intros p vals mom N C M. assert (F : Forall2 (fun a d => nth_error (vals ++ mom) a = Some d) (seq 0 (List.length vals)) vals).
  { clear. assert (G : forall pre, Forall2 (fun a d => nth_error ((pre ++ vals) ++ mom) a = Some d) (seq (List.length pre) (List.length vals)) vals).
    { induction vals as [|d vals IH]; intros pre; cbn [seq List.length]; constructor.
      - rewrite <- app_assoc. rewrite nth_error_app2 by lia. now rewrite Nat.sub_diag.
      - specialize (IH (pre ++ [d])%list). rewrite app_length in IH. cbn [List.length] in IH. rewrite Nat.add_1_r in IH.
        replace ((pre ++ d :: vals) ++ mom)%list with (((pre ++ [d]) ++ vals) ++ mom)%list by (now rewrite <- (app_assoc pre [d])). exact IH. }
    exact (G []). }
  pose proof (NoDup_app_parts _ _ N) as (_ & _ & D).
  assert (V : forall d, In d vals -> ~ is_moment p d) by (intros d H; unfold is_moment; rewrite M; auto).
  split; apply select_mult_exact; auto; (split; [exact F|]); (split; [right; exact V|]).
  - right. right. left. rewrite C, app_length, Nat.add_sub. auto.
  - left. split; [reflexivity|]. split; [reflexivity|]. rewrite M, filter_app.
    assert (E1 : filter (fun d => negb (smem d mom)) vals = vals).
    { assert (K : forall d, In d vals -> smem d mom = false) by (intros d H; apply smem_false; auto). clear -K. induction vals as [|d l IH]; [reflexivity|]. cbn.
      rewrite (K d) by now left. cbn. f_equal. apply IH. intros; apply K; now right. }
    assert (E2 : filter (fun d => negb (smem d mom)) mom = []).
    { assert (K : forall l, (forall d, In d l -> smem d mom = true) -> filter (fun d => negb (smem d mom)) l = []).
      { clear. induction l as [|d l IH]; intros K; [reflexivity|]. cbn. rewrite (K d) by now left. cbn. apply IH. intros; apply K; now right. }
      apply K. intros d H. now apply smem_In. }
    rewrite E1, E2. symmetry. apply app_nil_r.
Qed.
Theorem axis_none_moments_first_refuted : exists p dims ax ds, mom_dims_of p = ["mom"] /\ counted p = 1%nat /\
  select_axis_dim_mult p (XArr dims) Missing PyNone Missing Missing false = Ok (ax, ds) /\
  select_axis_dim_mult p (XArr dims) PyNone Missing Missing Missing false = Raise EValue.
Proof. exists (XP (Some 1%Z) (Some ["mom"])), ["mom"; "x"; "y"]. do 2 eexists. repeat split. Qed.
(* repeated axes are rejected, repeated names are not *)
Theorem repeated_names_accepted_refuted : exists p dims axes ds,
  select_axis_dim_mult p (XArr dims) Missing (Val (DSeq ds)) Missing Missing false = Ok (axes, ds) /\ ~ NoDup ds /\
  select_axis_dim_mult p (XArr dims) (Val (map (fun a => AInt (Z.of_nat a)) axes)) Missing Missing Missing false = Raise EValue.
Proof.
  exists (XP (Some 1%Z) (Some ["mom"])), ["x"; "mom"]. eexists. exists ["x"; "x"]. split; [reflexivity|]. split; [|reflexivity].
  intros N. inversion N as [|? ? H _]. apply H. now left.
Qed.

(* ---- shapes ------------------------------------------------------------------------- *)

Lemma sizes_ok dims shape d s : NoDup dims -> List.length shape = List.length dims ->
  (sizes dims shape d = Ok s <-> exists a, nth_error dims a = Some d /\ nth_error shape a = Some s).
Proof.
  intros N L. unfold sizes. destruct (smem d dims) eqn:S.
  - apply smem_In in S. pose proof (position_nth _ _ S) as P. assert (Lt : (position String.eqb d dims < List.length shape)%nat) by (rewrite L; apply nth_error_Some; congruence).
    split.
    + intros E. inversion E; subst. exists (position String.eqb d dims). split; [exact P|]. now apply nth_error_nth'.
    + intros (a & E & F). f_equal. rewrite (position_unique _ N _ _ E). now apply nth_error_nth.
  - apply smem_false in S. split; [discriminate|]. intros (a & E & _). exfalso. apply S. eapply nth_error_In; eauto.
Qed.
Lemma py_get_nat {T} (l : list T) a : py_get l (Z.of_nat a) = of_opt EIndex (nth_error l a).
Proof. unfold py_get. destruct (Z.ltb_spec (Z.of_nat a) 0); [lia|]. cbv zeta. destruct (Z.ltb_spec (Z.of_nat a) 0); [lia|]. now rewrite Nat2Z.id. Qed.

(* Labelled data and the array behind it have the same moment shape and value shape. *)
Theorem labelled_shapes_agree : forall p dims shape q m, NoDup dims -> List.length shape = List.length dims -> xp_dims p = Some m -> NoDup m ->
  x_to_array p (Some dims) = Ok q ->
  get_mom_shape q shape = x_get_mom_shape p dims shape /\ get_val_shape q shape = x_get_val_shape p dims shape /\
  get_mom q shape = x_get_mom p dims shape.
Proof.
  intros p dims shape q m N L Pm Nm E. unfold x_to_array, get_axes, iter_dims in E. rewrite Pm in E. cbn [rbind] in E.
  destruct (mapR (get_axis_num dims) m) as [axes|] eqn:A; [|discriminate]. cbn [rbind] in E. inversion E; subst q. clear E.
  apply axis_nums in A; [|exact N].
  assert (S : forall l ax, Forall2 (fun a d => nth_error dims a = Some d) ax l -> exists s, mapR (py_get shape) (map Z.of_nat ax) = Ok s /\ mapR (sizes dims shape) l = Ok s /\ s = map (fun a => nth a shape 0%nat) ax).
  { clear -N L. intros l ax F. induction F as [|a d ax l E F (s & IH1 & IH2 & IH3)]; [exists []; auto|].
    assert (Lt : (a < List.length shape)%nat) by (rewrite L; apply nth_error_Some; congruence).
    exists (nth a shape 0%nat :: s). cbn [map mapR]. rewrite py_get_nat, (nth_error_nth' shape 0%nat Lt). cbn [of_opt rbind]. rewrite IH1. cbn [rbind].
    assert (Sz : sizes dims shape d = Ok (nth a shape 0%nat)) by (apply sizes_ok; auto; exists a; split; [exact E|now apply nth_error_nth']).
    rewrite Sz. cbn [rbind]. rewrite IH2. cbn [rbind]. subst s. auto. }
  destruct (S m axes A) as (s & S1 & S2 & S3). unfold get_mom_shape, x_get_mom_shape, get_mom, x_get_mom, iter_axes, iter_dims. cbn [ap_axes]. rewrite Pm. cbn [rbind]. rewrite S1, S2.
  split; [reflexivity|]. split; [|reflexivity]. unfold get_val_shape, x_get_val_shape. cbn [ap_axes ap_ndim option_map]. rewrite Pm.
  assert (Nax : NoDup axes).
  { clear -A Nm. induction A as [|a d ax l E F IH]; [constructor|]. inversion Nm as [|? ? H1 H2]; subst. constructor; [|auto]. intros Ha. apply H1.
    clear -E F Ha. induction F as [|b d' ax l E' F IH]; [contradiction|]. destruct Ha as [->|Ha]; [left; congruence|right; auto]. }
  assert (Lax : forall a, In a axes -> (a < List.length shape)%nat).
  { clear -A L. intros a Ha. rewrite L. induction A as [|b d ax l E F IH]; [contradiction|]. destruct Ha as [->|Ha]; [apply nth_error_Some; congruence|auto]. }
  rewrite normalize_nats by auto. cbn [rbind].
  set (vals := filter (fun i => negb (nat_mem i axes)) (seq 0 (List.length shape))).
  assert (FV : Forall2 (fun a d => nth_error dims a = Some d) vals (filter (fun d => negb (smem d m)) dims)).
  { unfold vals. rewrite L. clear -A N. 
    assert (K : forall a d, nth_error dims a = Some d -> nat_mem a axes = smem d m).
    { intros a d E. destruct (smem d m) eqn:Sm.
      - apply smem_In in Sm. apply nat_mem_In. clear -A E Sm N. induction A as [|b d' ax l E' F IH]; [contradiction|]. destruct Sm as [->|Sm]; [|right; auto].
        left. apply (proj1 (NoDup_nth_error dims) N); [apply nth_error_Some; congruence|congruence].
      - apply smem_false in Sm. destruct (nat_mem a axes) eqn:X; [|reflexivity]. apply nat_mem_In in X. exfalso. apply Sm.
        clear -A E X. induction A as [|b d' ax l E' F IH]; [contradiction|]. destruct X as [->|X]; [left; congruence|right; auto]. }
    assert (G : forall pre l, dims = (pre ++ l)%list -> Forall2 (fun a d => nth_error dims a = Some d)
       (filter (fun i => negb (nat_mem i axes)) (seq (List.length pre) (List.length l))) (filter (fun d => negb (smem d m)) l)).
    { intros pre l. revert pre. induction l as [|d l IH]; intros pre E; [constructor|]. cbn [List.length seq filter].
      assert (Ed : nth_error dims (List.length pre) = Some d) by (rewrite E, nth_error_app2, Nat.sub_diag by lia; reflexivity).
      rewrite (K _ _ Ed). specialize (IH (pre ++ [d])%list). rewrite app_length in IH. cbn [List.length] in IH. rewrite Nat.add_1_r, <- app_assoc in IH. specialize (IH E).
      destruct (smem d m); cbn [negb]; [exact IH|]. constructor; auto. }
    exact (G [] dims eq_refl). }
  destruct (S _ _ FV) as (s' & _ & V2 & V3). rewrite V2. f_equal. symmetry. exact V3.
Qed.
(* Without the data the last axes are taken, whatever the dimension names are. *)
Theorem to_array_without_data : forall p dims vals m, one_or_two (Z.of_nat (List.length m)) -> xp_dims p = Some m -> xp_ndim p = Some (Z.of_nat (List.length m)) ->
  dims = (vals ++ m)%list -> NoDup dims ->
  exists q q', x_to_array p None = Ok q /\ x_to_array p (Some dims) = Ok q' /\
  forall shape, List.length shape = List.length dims -> get_mom_shape q shape = get_mom_shape q' shape.
Proof.
  intros p dims vals m O Pm Pn Ed N. unfold x_to_array, get_axes, iter_dims. rewrite Pm, Pn. cbn [rbind].
  assert (A : mapR (get_axis_num dims) m = Ok (seq (List.length vals) (List.length m))).
  { apply axis_nums; [exact N|]. subst dims. clear -N. assert (G : forall pre, Forall2 (fun a d => nth_error (pre ++ m) a = Some d) (seq (List.length pre) (List.length m)) m).
    { induction m as [|d m IH]; intros pre; cbn [seq List.length]; constructor.
      - rewrite nth_error_app2, Nat.sub_diag by lia. reflexivity.
      - assert (N' : NoDup (vals ++ m)) by (apply NoDup_remove_1 in N; exact N). specialize (IH N' (pre ++ [d])%list). rewrite app_length in IH. cbn [List.length] in IH.
        rewrite Nat.add_1_r, <- app_assoc in IH. exact IH. }
    apply G. }
  rewrite A. cbn [rbind]. assert (Ln : List.length dims = (List.length vals + List.length m)%nat) by (subst dims; apply app_length).
  assert (P : forall (shape : list nat) a k, List.length shape = List.length dims -> (0 < k <= List.length dims)%nat -> a = (List.length dims - k)%nat -> py_get shape (- Z.of_nat k) = py_get shape (Z.of_nat a)).
  { intros shape a k Ls Hk ->. unfold py_get. rewrite Ls. destruct (Z.ltb_spec (- Z.of_nat k) 0); [|lia]. destruct (Z.ltb_spec (Z.of_nat (List.length dims - k)) 0); [lia|].
    replace (- Z.of_nat k + Z.of_nat (List.length dims))%Z with (Z.of_nat (List.length dims - k)) by lia. reflexivity. }
  destruct O as [O|O]; rewrite O; cbn [axes_last_of rbind]; do 2 eexists; (split; [reflexivity|]); (split; [reflexivity|]); intros shape Ls; unfold get_mom_shape, iter_axes; cbn [ap_axes rbind].
  - assert (List.length m = 1%nat) as -> by lia. cbn [seq map mapR]. rewrite <- (P shape (List.length vals) 1%nat) by lia. reflexivity.
  - assert (List.length m = 2%nat) as -> by lia. cbn [seq map mapR]. rewrite <- (P shape (List.length vals) 2%nat), <- (P shape (S (List.length vals)) 1%nat) by lia. reflexivity.
Qed.
Theorem to_array_without_data_refuted : exists p dims shape q, xp_dims p = Some ["mom"] /\ In "mom" dims /\ x_to_array p None = Ok q /\
  get_mom_shape q shape = Ok [2%nat] /\ x_get_mom_shape p dims shape = Ok [4%nat].
Proof. exists (XP (Some 1%Z) (Some ["mom"])), ["mom"; "x"], [4; 2]%nat. eexists. repeat split. now left. Qed.
(* Distinct axes split the shape. *)
Theorem shape_split : forall n axes shape v m M, Forall2 (is_axis (List.length shape)) axes M -> NoDup M ->
  get_val_shape (AP n (Some axes)) shape = Ok v -> get_mom_shape (AP n (Some axes)) shape = Ok m -> Permutation (v ++ m) shape /\ m = map (fun a => nth a shape 0%nat) M.
Proof.
  intros n axes shape v m M F Nd V E. unfold get_val_shape in V. cbn [ap_axes option_map ap_ndim] in V.
  assert (T : normalize_axis_tuple (Some (map AInt axes)) (List.length shape) (option_map Z.to_nat n) false = Ok M).
  { apply normalize_tuple_ok. split; [|exact Nd]. clear -F. induction F; cbn; constructor; auto. }
  rewrite T in V. cbn [rbind] in V. inversion V; subst v. clear V.
  assert (Em : m = map (fun a => nth a shape 0%nat) M).
  { unfold get_mom_shape, iter_axes in E. cbn [ap_axes rbind] in E. destruct (mapR (py_get shape) axes) as [s|] eqn:P; [|discriminate]. inversion E; subst s. clear E.
    apply py_get_list in P. clear -F P. revert m P. induction F as [|z a zs M A F IH]; intros m P; inversion P as [|? ? ? m' (b & B & Eb) P']; subst; [reflexivity|].
    cbn [map]. f_equal; [|auto]. rewrite (is_axis_fun _ _ _ _ B A) in Eb. symmetry. now apply nth_error_nth. }
  split; [|exact Em]. rewrite Em. rewrite <- map_app.
  apply (Permutation_trans (l' := map (fun a => nth a shape 0%nat) (seq 0 (List.length shape)))); [|now rewrite map_nth_seq]. apply Permutation_map.
  rewrite except_filter. apply except_perm; [exact Nd|]. intros a Ha. eapply is_axis_range; eauto.
Qed.

(* ---- examples ----------------------------------------------------------------------- *)

Example explicit_axes_ex : without_axes (MPDict (MPD (Some (Some 1%Z)) None None)) /\
  array_factory false (MPDict (MPD (Some (Some 1%Z)) None None)) None (Some (IInt 0)) None = Ok (AP (Some 1%Z) (Some [0%Z])).
Proof. split; reflexivity. Qed.
Example explicit_axes_count_ex : array_factory false MPNone (Some 2%Z) (Some (IIter [0%Z])) None = Raise EValue.
Proof. reflexivity. Qed.
Example explicit_dims_ex : x_factory false MPNone None (Some (DSeq ["a"; "b"])) None OOther None = Ok (XP (Some 2%Z) (Some ["a"; "b"])).
Proof. reflexivity. Qed.
Example dims_from_axes_ex : x_factory false MPNone None None (Some (IIter [0; -1]%Z)) (ODataArray ["a"; "x"; "b"]) None = Ok (XP (Some 2%Z) (Some ["a"; "b"])).
Proof. reflexivity. Qed.
Example select_ex : let p := XP (Some 1%Z) (Some ["mom"]) in NoDup ["x"; "y"; "mom"] /\
  select_axis_dim p (XArr ["x"; "y"; "mom"]) (Val (AComplex (-1))) Missing Missing Missing false = Ok (1%nat, "y") /\
  select_axis_dim p (XArr ["x"; "y"; "mom"]) (Val (AInt (-1))) Missing Missing Missing false = Raise EValue.
Proof. split; [|split; reflexivity]. repeat constructor; cbn; intuition discriminate. Qed.
Example labelled_shapes_ex : let p := XP (Some 2%Z) (Some ["b"; "a"]) in
  exists q, x_to_array p (Some ["a"; "x"; "b"]) = Ok q /\ get_mom_shape q [3; 7; 4] = Ok [4; 3]%nat /\ get_val_shape q [3; 7; 4] = Ok [7]%nat.
Proof. eexists. repeat split. Qed.
