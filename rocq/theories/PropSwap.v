(* swap_dims and rename of labelled objects, read by the names of dimensions (C196-C199). *)
From Coq Require Import String.
From Verif Require Import Base BaseLemmas Checks ModelPush ModelKernels ModelIndex ModelAxes ModelParams ModelWrap ModelSwap
  Spec SpecAxes SpecNd SpecLabel PropLabelled ProofAxes ProofArrays ProofNd ProofLabel PropParams PropWrap PropShape PropShapeSet.
Local Open Scope string_scope.
Local Open Scope nat_scope.

(* f gives the names of pairs l: the pair of a name if there is one, else the name *)
Definition gives (l : list (sname * sname)) (f : sname -> sname) : Prop :=
  (forall a b, In (a, b) l -> f a = b) /\ forall a, ~ In a (map fst l) -> f a = a.
(* y is x with dimension n called f n *)
Definition renamed (f : sname -> sname) (x y : xarr) : Prop :=
  (forall n, In n (x_dims y) <-> In n (map f (x_dims x))) /\ (forall n, In n (x_dims x) -> dim_size y (f n) = dim_size x n) /\
  forall env, x_inside y env -> x_at y env = x_at x (fun n => env (f n)).

Lemma new_name_gives l : NoDup (map fst l) -> gives l (new_name l).
Proof.
  intros N. unfold new_name. split.
  - induction l as [|[k v] l IH]; [intros a b []|]. cbn [map fst] in N. inversion_clear N as [|? ? Nk N']. intros a b [E|I]; cbn [find fst].
    + injection E as -> ->. now rewrite String.eqb_refl.
    + destruct (String.eqb_spec k a) as [->|_]; [elim Nk; apply in_map_iff; now exists (a, b)|]. now apply IH.
  - induction l as [|[k v] l IH]; [reflexivity|]. cbn [map fst] in N. inversion_clear N as [|? ? _ N']. intros a H. cbn [find fst]. destruct (String.eqb_spec k a) as [->|_]; [elim H; now left|]. apply IH; [exact N'|]. intros I. apply H. now right.
Qed.
Lemma gives_same l f g n : gives l f -> gives l g -> f n = g n.
Proof.
  intros [F1 F2] [G1 G2]. destruct (in_dec string_dec n (map fst l)) as [I|I]; [|now rewrite F2, G2]. apply in_map_iff in I. destruct I as ([a b] & <- & I). cbn [fst]. now rewrite (F1 a b I), (G1 a b I).
Qed.
Lemma rename_ok f x : x_ok x -> NoDup (map f (x_dims x)) -> x_ok (x_rename f x).
Proof. intros (A & _ & C) N. split; [exact A|]. split; [exact N|]. cbn [x_rename x_dims]. now rewrite map_length. Qed.
Lemma rename_size f x n : x_ok x -> NoDup (map f (x_dims x)) -> In n (x_dims x) -> dim_size (x_rename f x) (f n) = dim_size x n.
Proof.
  intros Hx N Hn. destruct (In_nth _ _ "" Hn) as (k & Hk & <-). rewrite <- (dim_size_nth x k Hx Hk).
  assert (E : f (nth k (x_dims x) "") = nth k (x_dims (x_rename f x)) "").
  { cbn [x_rename x_dims]. symmetry. rewrite (nth_indep _ "" (f "")) by (now rewrite map_length). apply map_nth. }
  rewrite E, <- (dim_size_nth (x_rename f x) k (rename_ok f x Hx N)); [reflexivity|]. cbn [x_rename x_dims]. now rewrite map_length.
Qed.
Lemma rename_renamed f x : x_ok x -> NoDup (map f (x_dims x)) -> renamed f x (x_rename f x).
Proof. intros Hx N. split; [reflexivity|]. split; [intros n Hn; now apply rename_size|]. intros env _. unfold x_at. cbn [x_rename x_dims x_val]. now rewrite map_map. Qed.
Lemma renamed_same f x y z : NoDup (map f (x_dims x)) -> renamed f x y -> x_same y z -> renamed f x z.
Proof.
  intros N (R1 & R2 & R3) (S1 & S2 & S3). split; [intros n; rewrite <- S1; apply R1|]. split.
  - intros n Hn. rewrite <- S2 by (apply R1; now apply in_map). now apply R2.
  - intros env He. assert (Hy : x_inside y env) by (intros n Hn; rewrite S2 by exact Hn; apply He; now apply S1). now rewrite <- S3, R3.
Qed.

(* what l may be: each name once, names of dimensions, and no two dimensions of one name after it *)
Definition swappable (l : list (sname * sname)) (f : sname -> sname) (x : xarr) : Prop := incl (map fst l) (x_dims x) /\ NoDup (map f (x_dims x)).
Lemma swap_exact l f x : gives l f -> NoDup (map fst l) -> (swappable l f x -> x_swap_dims l x = Ok (x_rename (new_name l) x)) /\ (~ swappable l f x -> x_swap_dims l x = Raise EValue).
Proof.
  intros G Nl. assert (E : map (new_name l) (x_dims x) = map f (x_dims x)) by (apply map_ext; intros n; apply (gives_same l); [now apply new_name_gives|exact G]).
  assert (B : forallb (fun p => smem (fst p) (x_dims x)) l = true <-> incl (map fst l) (x_dims x)).
  { rewrite forallb_forall. split; [intros H n Hn; apply in_map_iff in Hn; destruct Hn as (p & <- & I); apply smem_In; now apply H|intros H p I; apply smem_In; apply H; now apply in_map]. }
  unfold x_swap_dims, swappable. rewrite E. split.
  - intros (I & N). rewrite (proj2 B I). cbn [negb]. now rewrite (proj2 (sdup_false _) N).
  - intros X. destruct (forallb _ l) eqn:F; cbn [negb]; [|reflexivity]. destruct (sdup _) eqn:D; [reflexivity|]. elim X. split; [now apply B|now apply sdup_false].
Qed.
Lemma rename_names l f x : gives l f -> NoDup (map fst l) -> x_rename (new_name l) x = x_rename f x.
Proof. intros G Nl. unfold x_rename. f_equal. apply map_ext. intros n. apply (gives_same l); [now apply new_name_gives|exact G]. Qed.

(* swap_dims: the dimensions change names, entries stay; the moment dimensions come last;
   if the array has then no moment dimensions of the right sizes, a ValueError *)
Theorem swap_named : forall c md l f, xholds c md -> NoDup (map fst l) -> gives l f ->
  let fits := swappable l f (cx_obj c) /\ forall m, In m md -> exists n, In n (x_dims (cx_obj c)) /\ f n = m /\ dim_size (cx_obj c) n = dim_size (cx_obj c) m in
  (fits -> exists y, cx_swap_dims c l true = Ok (CX y (cx_params c)) /\ xholds (CX y (cx_params c)) md /\ renamed f (cx_obj c) y /\
     x_dims y = (except_name (map f (x_dims (cx_obj c))) md ++ md)%list) /\
  (~ fits -> cx_swap_dims c l true = Raise EValue).
Proof.
  intros c md l f H Nl G fits. pose proof H as (Ho & Nm & _ & _ & _ & Pc). set (x := cx_obj c) in *. destruct (swap_exact l f x G Nl) as [S1 S2]. split.
  - intros (Sw & M). pose proof Sw as (_ & N). specialize (S1 Sw). rewrite (rename_names l f x G Nl) in S1. pose proof (rename_ok f x Ho N) as Hr.
    assert (Im : incl md (x_dims (x_rename f x))) by (intros m Hm; destruct (M m Hm) as (n & I & <- & _); cbn [x_rename x_dims]; now apply in_map).
    assert (Sm : forall m, In m md -> dim_size (x_rename f x) m = dim_size (cx_obj c) m) by (intros m Hm; destruct (M m Hm) as (n & I & E & Es); rewrite <- E at 1; rewrite rename_size by assumption; exact Es).
    destruct (x_pipe_reorders c md (x_swap_dims l) _ false H S1 Hr Im Sm eq_refl) as (_ & y & E1 & E2 & E3 & E4). exists y. split; [exact E1|]. split; [exact E2|]. split; [apply (renamed_same f x _ y N (rename_renamed f x Ho N) E3)|]. rewrite E4. now rewrite filter_names.
  - intros X. unfold cx_swap_dims, cx_pipe. fold x. assert (D : swappable l f x \/ ~ swappable l f x).
    { unfold swappable. destruct (forallb (fun n => smem n (x_dims x)) (map fst l)) eqn:F1; [apply forallb_incl in F1|right; intros [Q _]; apply forallb_incl in Q; congruence].
      destruct (sdup (map f (x_dims x))) eqn:F2; [right; intros [_ Q]; apply sdup_false in Q; congruence|apply sdup_false in F2; now left]. }
    destruct D as [Sw|Sw]; [|rewrite (S2 Sw); reflexivity]. rewrite (S1 Sw), (rename_names l f x G Nl). cbn [rbind]. unfold iter_dims. rewrite Pc. cbn [xp_dims rbind]. pose proof Sw as (_ & N). pose proof (rename_ok f x Ho N) as Hr.
    destruct (x_transpose (None :: map Some md) (x_rename f x)) as [y|e] eqn:Ey; cbn [rbind].
    + destruct (x_transpose_same _ _ _ Hr Ey) as (Hy & (T1 & T2 & _) & _). apply (x_new_like_exact c md y false H Hy). intros (F1 & F2 & _). apply X. split; [exact Sw|]. intros m Hm.
      pose proof (F1 m Hm) as I. apply T1 in I. cbn [x_rename x_dims] in I. apply in_map_iff in I. destruct I as (n & E & I). exists n. split; [exact I|]. split; [exact E|].
      rewrite <- (rename_size f x n Ho N I), E, T2; [exact (F2 m Hm)|]. cbn [x_rename x_dims]. rewrite <- E. now apply in_map.
    + unfold x_transpose in Ey. destruct (infix_dims _ _) as [ds|e'] eqn:Ei; cbn [rbind] in Ey; [|injection Ey as <-; now rewrite (infix_err _ _ _ Ei)]. exfalso.
      destruct (x_transpose_ok _ _ _ Hr Ei) as (y & Ey2 & _). unfold x_transpose in Ey2. rewrite Ei in Ey2. cbn [rbind] in Ey2. congruence.
Qed.
(* without names of moments in l nothing can go wrong but l itself *)
Corollary swap_values : forall c md l f, xholds c md -> NoDup (map fst l) -> gives l f -> (forall m, In m md -> ~ In m (map fst l)) -> swappable l f (cx_obj c) ->
  exists y, cx_swap_dims c l true = Ok (CX y (cx_params c)) /\ xholds (CX y (cx_params c)) md /\ renamed f (cx_obj c) y /\ x_dims y = (except_name (map f (x_dims (cx_obj c))) md ++ md)%list.
Proof.
  intros c md l f H Nl G D Sw. apply (swap_named c md l f H Nl G). split; [exact Sw|]. intros m Hm. exists m. split; [now apply H|]. split; [|reflexivity]. apply G. now apply D.
Qed.
(* a moment dimension under a name that no other dimension takes over: a ValueError *)
Corollary swap_moment_error : forall c md l f m, xholds c md -> NoDup (map fst l) -> gives l f -> In m md -> ~ In m (map f (x_dims (cx_obj c))) -> cx_swap_dims c l true = Raise EValue.
Proof.
  intros c md l f m H Nl G Hm D. apply (swap_named c md l f H Nl G). intros (_ & M). destruct (M m Hm) as (n & I & <- & _). apply D. now apply in_map.
Qed.

(* rename: every dimension stays in its place, also one of moments *)
Theorem rename_named : forall c md l f, xholds c md -> NoDup (map fst l) -> gives l f ->
  (swappable l f (cx_obj c) -> exists y, cx_rename_dims c l = Ok (CX y (cx_params c)) /\ renamed f (cx_obj c) y /\ x_dims y = map f (x_dims (cx_obj c)) /\
     ((forall m, In m md -> ~ In m (map fst l)) -> xholds (CX y (cx_params c)) md)) /\
  (~ swappable l f (cx_obj c) -> cx_rename_dims c l = Raise EValue).
Proof.
  intros c md l f H Nl G. pose proof H as (Ho & Nm & Lm & Im & Sm & Pc). set (x := cx_obj c) in *. unfold cx_rename_dims. fold x. destruct (swap_exact l f x G Nl) as [S1 S2]. split.
  - intros Sw. rewrite (S1 Sw), (rename_names l f x G Nl). pose proof Sw as (_ & N). exists (x_rename f x). split; [reflexivity|]. split; [now apply rename_renamed|]. split; [reflexivity|]. intros D.
    assert (Fm : forall m, In m md -> f m = m) by (intros m Hm; apply G; now apply D). split; [now apply rename_ok|]. split; [exact Nm|]. split; [exact Lm|]. cbn [cx_obj cx_params]. split.
    + intros m Hm. cbn [x_rename x_dims]. rewrite <- (Fm m Hm). apply in_map. now apply Im.
    + split; [|exact Pc]. rewrite Forall_forall in Sm |- *. intros m Hm. rewrite <- (Fm m Hm), rename_size; auto.
  - intros X. now rewrite (S2 X).
Qed.
