(* wrap_reduce_vals and wrap_resample_vals (C130). *)
From Coq Require Import String.
From Verif Require Import Base BaseLemmas Shift ModelPush ModelPushCov ModelConvert ProofPush ProofPushCov ProofConvert ModelKernels ModelIndex ModelAxes ModelState ModelParams
  ModelNd ModelWrap ModelMethods ModelMoments ModelConstruct
  Spec SpecAxes SpecNd SpecMethods SpecMoments ProofSpec ProofAxes ProofArrays ProofMulti ProofNd PropReduce PropAxes PropNd PropNdUse ProofNdVals PropNdVals PropNdValsUse PropWrap ProofMethods PropMethods
  PropMethodsUse ProofMoments PropConvert PropMoments PropSelect PropAssign PropConstruct PropConstructUse PropConstructStat Checks.
Local Notation length := List.length (only parsing).
Local Open Scope nat_scope.

(* ---- names of the axes --------------------------------------------------------------- *)

Lemma frame_axes s ms : map (shape_of (frame s ms)) (seq 0 (length s)) = s /\ map (shape_of (frame s ms)) (seq (length s) (length ms)) = ms.
Proof.
  split; apply (nth_ext _ _ 0 0); try (now rewrite map_length, seq_length); intros k Hk; rewrite map_length, seq_length in Hk;
    rewrite (nth_map_in _ _ _ _ 0) by (now rewrite seq_length); rewrite seq_nth by exact Hk; unfold shape_of, frame; cbn [tabulate tshape].
  - now rewrite app_nth1.
  - rewrite app_nth2 by lia. f_equal. lia.
Qed.
Lemma less_axis_names (f : nat -> nat) n r : r < n -> less_axis r (map f (seq 0 n)) = map f (except_nat (seq 0 n) [n - 1 - r]).
Proof. intros H. replace n with ((n - 1 - r) + r + 1) at 1 2 by lia. now rewrite less_axis_map, except_middle. Qed.

(* ---- wrap_reduce_vals ----------------------------------------------------------------- *)

Lemma mom_shape {A V} (K : pusher A V) ok P R : values_array K ok P R ->
  (length (pk_shape P) = 1 \/ length (pk_shape P) = 2) /\ Forall (fun n => 2 <= n) (pk_shape P).
Proof. intros VA. destruct VA; cbn; (split; [auto|]); repeat apply Forall_cons; try apply Forall_nil; lia. Qed.
(* the orders mom name a kernel *)
Inductive mom_names (nmax : nat) (mom : ints_arg) : forall {A V}, pusher A V -> packer A -> reader V -> Prop :=
| names_one n : 1 <= n -> mom = IInt (Z.of_nat n) \/ mom = IIter [Z.of_nat n] -> mom_names nmax mom (pusher1 nmax n) (packer1 n) reader1
| names_two n0 n1 : 1 <= n0 -> 1 <= n1 -> mom = IIter [Z.of_nat n0; Z.of_nat n1] -> mom_names nmax mom (pusher2 nmax n0 n1) (packer2 n0 n1) reader2.
Lemma factory_mom {A V} nmax mom (K : pusher A V) P R : mom_names nmax mom K P R ->
  let l := map (fun n => (Z.of_nat n - 1)%Z) (pk_shape P) in
  array_factory_mom mom MPNone None None = Ok (l, AP (Some (Z.of_nat (length (pk_shape P)))) (Some (axes_last (length (pk_shape P))))) /\
  array_factory_mom (IIter l) MPNone None None = array_factory_mom mom MPNone None None /\
  forall T (f : forall A V, pusher A V -> packer A -> reader V -> res T), with_mom nmax l f = f A V K P R.
Proof.
  assert (B : forall n, 1 <= n -> (0 <? Z.of_nat n)%Z = true) by (intros n Hn; apply Z.ltb_lt; lia).
  assert (C : forall n, (Z.of_nat (S n) - 1)%Z = Z.of_nat n) by (intros; lia).
  intros N. destruct N as [n Hn E|n0 n1 H0 H1 E].
  - unfold packer1. cbn [pk_shape map length]. rewrite C. cbv zeta. split; [|split].
    + destruct E as [-> | ->]; unfold array_factory_mom, validate_mom, is_mom_tuple; cbn [length Nat.eqb forallb orb andb]; rewrite B by exact Hn; reflexivity.
    + destruct E as [-> | ->]; reflexivity.
    + intros T f. cbn [with_mom]. now rewrite Nat2Z.id.
  - unfold packer2. cbn [pk_shape map length]. rewrite !C. cbv zeta. split; [|split].
    + subst mom. unfold array_factory_mom, validate_mom, is_mom_tuple. cbn [length Nat.eqb forallb orb andb]. rewrite !B by assumption. reflexivity.
    + now subst mom.
    + intros T f. cbn [with_mom]. now rewrite !Nat2Z.id.
Qed.
Lemma result_holds {A V} (K : pusher A V) ok P R nmax mom vs out : values_array K ok P R -> mom_names nmax mom K P R ->
  tensor_ok out -> tshape out = vs ++ pk_shape P ->
  holds (CM out (AP (Some (Z.of_nat (length (pk_shape P)))) (Some (axes_last (length (pk_shape P)))))) vs (pk_shape P).
Proof. intros VA _ T S'. destruct (mom_shape K ok P R VA) as [L F]. split; [exact T|]. split; [exact S'|]. auto. Qed.

(* C130: the object made from values is the one made by pushing them onto zeros *)
Theorem wrap_reduce_vals_is_push : forall {A V} (K : pusher A V) ok P R, values_array K ok P R ->
  forall nmax mom stretch axis r x w y s, mom_names nmax mom K P R -> values_ok P axis r x w y s ->
  exists c0, c_zeros mom (less_axis r s) = Ok c0 /\ c_wrap_reduce_vals nmax mom axis x w y = c_push_vals K P R stretch c0 axis x w y.
Proof.
  intros A V K ok P R VA nmax mom stretch axis r x w y s N HV. destruct (factory_mom nmax mom K P R N) as (E & E2 & W).
  destruct (push_vals_onto_zeros_is_reduce_vals K ok P R VA stretch axis r x w y s HV) as (c0 & Ec0 & X). exists c0. split.
  - rewrite <- Ec0. unfold c_zeros. now rewrite E2.
  - unfold c_wrap_reduce_vals. rewrite E. cbn [rbind]. rewrite W. destruct (reduce_vals_nd K P R axis x w y) as [out|e]; cbn [rbind].
    + destruct X as (c & -> & (_ & _ & _ & _ & Hp) & Ho). rewrite wrap_params. f_equal. destruct c as [t q]. cbn [c_obj c_params] in *. now subst.
    + destruct X as [-> ->]. reflexivity.
Qed.
(* C130: wrap_reduce_vals gives an object that holds the moments of the values at each
   position of the other axes *)
Theorem wrap_reduce_vals_moments : forall nmax n mom axis r x w s, 1 <= n <= nmax ->
  mom = IInt (Z.of_nat n) \/ mom = IIter [Z.of_nat n] -> values_ok (packer1 n) axis r x w [] s -> nonneg_entries w ->
  exists c, c_wrap_reduce_vals nmax mom axis x w [] = Ok c /\ holds_samples c (less_axis r s) n (samples_on reader1 x w [] r).
Proof.
  intros nmax n mom axis r x w s Hn Em HV Hw. assert (N : mom_names nmax mom (pusher1 nmax n) (packer1 n) reader1) by (apply names_one; [lia|exact Em]).
  destruct (factory_mom nmax mom _ _ _ N) as (E & _ & W). destruct (values_loop _ axis r x w [] s HV) as [Rs _].
  destruct (reduce_vals_array_moments nmax n Hn axis r x w s HV Hw) as (out & Eo & To & So & G). set (L := except_nat _ _) in *.
  assert (EL : map (fun j => nth j s 0) L = less_axis r s) by (unfold L; rewrite <- less_axis_names by exact Rs; now rewrite map_nth_seq).
  eexists. unfold c_wrap_reduce_vals. rewrite E. cbn [rbind]. rewrite W, Eo. cbn [rbind]. rewrite wrap_params. split; [reflexivity|].
  rewrite EL in So. split; [exact (result_holds _ _ _ _ nmax mom _ out (va_one nmax n Hn) N To So)|].
  intros p k Vp Hk Wp. unfold mom_entry. cbn [c_obj]. assert (NL : NoDup L) by (apply NoDup_filter, seq_NoDup).
  destruct (position_env (fun j => nth j s 0) L p NL) as (env & I & Ep); [now rewrite EL|].
  destruct (G env I k Hk) as [G1 _]. rewrite Ep in G1.
  change (value_samples x w r s env) with (samples_in reader1 x w [] r s env) in G1. rewrite <- (samples_on_in (packer1 n) reader1 axis r x w [] s env HV) in G1.
  fold L in G1. rewrite Ep in G1. now apply G1.
Qed.
Theorem wrap_reduce_vals_comoments : forall nmax n0 n1 axis r x w y s, 1 <= n0 <= nmax -> 1 <= n1 <= nmax ->
  values_ok (packer2 n0 n1) axis r x w [y] s -> nonneg_entries w ->
  exists c, c_wrap_reduce_vals nmax (IIter [Z.of_nat n0; Z.of_nat n1]) axis x w [y] = Ok c /\ holds_pairs c (less_axis r s) n0 n1 (samples_on reader2 x w [y] r).
Proof.
  intros nmax n0 n1 axis r x w y s H0 H1 HV Hw. set (mom := IIter _). assert (N : mom_names nmax mom (pusher2 nmax n0 n1) (packer2 n0 n1) reader2) by (apply names_two; [lia|lia|reflexivity]).
  destruct (factory_mom nmax mom _ _ _ N) as (E & _ & W). destruct (values_loop _ axis r x w [y] s HV) as [Rs _].
  destruct (reduce_vals_array_comoments nmax n0 n1 H0 H1 axis r x w y s HV Hw) as (out & Eo & To & So & G). set (L := except_nat _ _) in *.
  assert (EL : map (fun j => nth j s 0) L = less_axis r s) by (unfold L; rewrite <- less_axis_names by exact Rs; now rewrite map_nth_seq).
  eexists. unfold c_wrap_reduce_vals. rewrite E. cbn [rbind]. rewrite W, Eo. cbn [rbind]. rewrite wrap_params. split; [reflexivity|].
  rewrite EL in So. split; [exact (result_holds _ _ _ _ nmax mom _ out (va_two nmax n0 n1 H0 H1) N To So)|].
  intros p i j Vp Hi Hj Wp. unfold mom_entry. cbn [c_obj]. assert (NL : NoDup L) by (apply NoDup_filter, seq_NoDup).
  destruct (position_env (fun j => nth j s 0) L p NL) as (env & I & Ep); [now rewrite EL|].
  destruct (G env I i j Hi Hj) as [G1 _]. rewrite Ep in G1.
  change (pair_samples x y w r s env) with (samples_in reader2 x w [y] r s env) in G1. rewrite <- (samples_on_in (packer2 n0 n1) reader2 axis r x w [y] s env HV) in G1.
  fold L in G1. rewrite Ep in G1. now apply G1.
Qed.
(* orders that are no one or two positive integers are refused before the values are
   looked at *)
Definition bad_mom (mom : ints_arg) (e : err) : Prop :=
  match mom with
  | INot => e = EType
  | IInt z => (z <= 0)%Z /\ e = EValue
  | IIter l => ~ ((length l = 1 \/ length l = 2) /\ Forall (fun z => 0 < z)%Z l) /\ e = EValue
  end.
Theorem wrap_vals_bad_mom : forall nmax mom e, bad_mom mom e -> forall axis x w y freq to_end,
  c_wrap_reduce_vals nmax mom axis x w y = Raise e /\ c_wrap_resample_vals nmax mom freq axis to_end x w y = Raise e.
Proof.
  intros nmax mom e B axis x w y freq to_end. assert (X : validate_mom mom = Raise e).
  { destruct mom as [z|l|]; cbn [bad_mom validate_mom] in *.
    - destruct B as [B ->]. unfold is_mom_tuple. cbn. destruct (Z.ltb_spec 0 z); [lia|reflexivity].
    - destruct B as [B ->]. destruct (is_mom_tuple l) eqn:E; [|reflexivity]. elim B. unfold is_mom_tuple in E. apply andb_true_iff in E. destruct E as [E1 E2]. split.
      + apply orb_true_iff in E1. destruct E1 as [E1|E1]; apply Nat.eqb_eq in E1; auto.
      + rewrite forallb_forall in E2. apply Forall_forall. intros z Hz. apply Z.ltb_lt. now apply E2.
    - now subst. }
  unfold c_wrap_reduce_vals, c_wrap_resample_vals, array_factory_mom. rewrite X. split; reflexivity.
Qed.

(* ---- wrap_resample_vals ----------------------------------------------------------------- *)

(* shape of the results over the loop s, whose axis r from the end held the samples:
   the replicates take its place, or come last *)
Definition replicate_shape (to_end : bool) (nrep r : nat) (s : list nat) : list nat :=
  if to_end then less_axis r s ++ [nrep] else firstn (length s - 1 - r) s ++ nrep :: skipn (length s - r) s.
(* replicate and remaining position of a position of the results *)
Definition replicate_at (to_end : bool) (r : nat) (p : list nat) : nat := from_end p (if to_end then 0 else r).
Definition rest_at (to_end : bool) (r : nat) (p : list nat) : list nat := less_axis (if to_end then 0 else r) p.
(* samples with their weights multiplied by the counts of a row of the table *)
Definition resampled {V} (freq : tensor) (i : nat) (sam : list (V * Qc)) : list (V * Qc) :=
  map (fun p => (fst (snd p), snd (snd p) * fst p)%Qc) (combine (nth i (table freq) []) sam).

Theorem wrap_resample_vals_cells : forall {A V} (K : pusher A V) ok P R, values_array K ok P R ->
  forall nmax mom freq axis to_end r x w y s, mom_names nmax mom K P R -> values_ok P axis r x w y s -> nonneg_entries w ->
  tensor_ok freq -> tndim freq = 2 -> shape_of freq 1 = dim_from_end x r -> nonneg_entries freq ->
  exists c, c_wrap_resample_vals nmax mom freq axis to_end x w y = Ok c /\
    holds c (replicate_shape to_end (shape_of freq 0) r s) (pk_shape P) /\
    forall p, valid (replicate_shape to_end (shape_of freq 0) r s) p -> exists o,
      reduce_vals K (resampled freq (replicate_at to_end r p) (samples_on R x w y r (rest_at to_end r p))) = Some o /\
      forall m, valid (pk_shape P) m -> mom_entry c p m = pk_unpack P o m.
Proof.
  intros A V K ok P R VA nmax mom freq axis to_end r x w y s N HV Hw Tf Nf Cf Pf. destruct (factory_mom nmax mom K P R N) as (E & _ & W).
  destruct (resample_vals_array_weighted K ok P R VA freq axis to_end r x w y s HV Hw Tf Nf Cf Pf) as (out & Eo & To & So & G). cbv zeta in So, G.
  destruct (values_loop P axis r x w y s HV) as [Rs _]. destruct (mom_shape K ok P R VA) as [LP FP].
  set (a := length s - 1 - r) in *. set (ms := pk_shape P) in *. set (M := seq (length s) (length ms)) in *. set (nrep := shape_of freq 0) in *.
  set (sh := fun b => if Nat.eqb b a then nrep else shape_of (frame s ms) b) in *. set (L := except_nat (seq 0 (length s)) [a]).
  set (AX := if to_end then L ++ [a] else seq 0 (length s)).
  destruct (frame_axes s ms) as [F1 F2]. fold M in F2.
  assert (La : a < length s) by (unfold a; lia).
  assert (LM : length (frame s ms).(tshape) = length s + length ms) by (unfold frame; cbn; apply app_length).
  assert (EAX : column_axes to_end (tndim (frame s ms)) a M = AX ++ M).
  { unfold column_axes, AX, tndim. rewrite LM. destruct to_end.
    - rewrite <- app_assoc. cbn [app]. f_equal. unfold L. rewrite seq_app, except_app. cbn [Nat.add]. fold M.
      rewrite (except_all _ M) by (intros b Hb; now right). rewrite app_nil_r. apply except_ext. intros b Hb. apply in_seq in Hb. cbn. split; [|intuition].
      intros [->|H]; [auto|]. apply in_seq in H. lia.
    - now rewrite seq_app. }
  rewrite EAX in So, G.
  assert (Esh : forall l, ~ In a l -> map sh l = map (shape_of (frame s ms)) l).
  { intros l Hl. apply map_ext_in. intros b Hb. unfold sh. destruct (Nat.eqb_spec b a); [subst; contradiction|reflexivity]. }
  assert (NaL : ~ In a L) by (unfold L; intros C; apply except_In in C; destruct C as [_ C]; apply C; now left).
  assert (NaM : ~ In a M) by (unfold M; intros C; apply in_seq in C; lia).
  assert (EM : map sh M = ms) by (rewrite Esh by exact NaM; exact F2).
  assert (Sa : sh a = nrep) by (unfold sh; now rewrite Nat.eqb_refl).
  assert (EL : map sh L = less_axis r s).
  { rewrite Esh by exact NaL. unfold L, a. rewrite <- less_axis_names by exact Rs. now rewrite F1. }
  assert (SPLIT : seq 0 (length s) = seq 0 a ++ a :: seq (S a) r).
  { replace (length s) with (a + S r) by (unfold a; lia). rewrite seq_app. reflexivity. }
  assert (EX : map sh AX = replicate_shape to_end nrep r s).
  { unfold AX, replicate_shape. destruct to_end; [rewrite map_app, EL; cbn [map]; now rewrite Sa|].
    set (f := shape_of (frame s ms)) in *. assert (FS : map f (seq 0 a) ++ f a :: map f (seq (S a) r) = s) by (rewrite <- F1, SPLIT, map_app; reflexivity).
    rewrite SPLIT, map_app. cbn [map]. rewrite Sa, !Esh by (intros C; apply in_seq in C; lia).
    assert (LF : length (map f (seq 0 a)) = a) by (now rewrite map_length, seq_length). fold a. replace (length s - r) with (S a) by (unfold a; lia).
    f_equal; [|f_equal]; rewrite <- FS.
    - rewrite firstn_app, LF, Nat.sub_diag, firstn_all2 by lia. cbn [firstn]. now rewrite app_nil_r.
    - rewrite skipn_app, LF, skipn_all2 by lia. replace (S a - a) with 1 by lia. reflexivity. }
  assert (NX : NoDup (AX ++ M)).
  { assert (NAX : NoDup AX). { unfold AX. destruct to_end; [|apply seq_NoDup]. apply NoDup_app_; [apply NoDup_filter, seq_NoDup|repeat constructor; auto|]. intros z Hz [<-|[]]. contradiction. }
    apply NoDup_app_; [exact NAX|apply seq_NoDup|]. intros z Hz Hm. apply in_seq in Hm. revert Hz. unfold AX. destruct to_end.
    - intros Hz. apply in_app_or in Hz. destruct Hz as [Hz|[<-|[]]]; [|lia]. apply except_In in Hz. destruct Hz as [Hz _]. apply in_seq in Hz. lia.
    - intros Hz. apply in_seq in Hz. lia. }
  cbn [gshape of_tensor] in So. rewrite map_app, EX, EM in So.
  eexists. unfold c_wrap_resample_vals. rewrite E. cbn [rbind]. rewrite W, Eo. cbn [rbind]. rewrite wrap_params. split; [reflexivity|].
  split; [exact (result_holds K ok P R nmax mom _ out VA N To So)|]. intros p Vp.
  assert (PE : forall m, valid ms m -> exists env, inside sh (AX ++ M) env /\ map env AX = p /\ map env M = m /\
    env a = replicate_at to_end r p /\ map env L = rest_at to_end r p).
  { intros m Vm. destruct (position_env sh (AX ++ M) (p ++ m) NX) as (env & I & Ee); [rewrite map_app, EX, EM; apply Forall2_app; assumption|].
    exists env. split; [exact I|]. rewrite map_app in Ee. apply app_inj_len in Ee; [|rewrite map_length, <- (map_length sh AX), EX; symmetry; now apply valid_length].
    destruct Ee as [E1 E3]. split; [exact E1|]. split; [exact E3|]. rewrite <- E1. unfold replicate_at, rest_at, AX. destruct to_end.
    - rewrite map_app. cbn [map]. split.
      + unfold from_end. rewrite rev_app_distr. reflexivity.
      + unfold less_axis. rewrite app_length, map_length. cbn [length]. replace (length L + 1 - 1 - 0) with (length L) by lia. replace (length L + 1 - 0) with (length L + 1) by lia.
        rewrite firstn_app, map_length, Nat.sub_diag. rewrite firstn_all2 by (now rewrite map_length). cbn [firstn]. rewrite app_nil_r.
        rewrite skipn_all2 by (rewrite app_length, map_length; cbn; lia). now rewrite app_nil_r.
    - split.
      + rewrite from_end_nth by (rewrite map_length, seq_length; lia). rewrite map_length, seq_length. fold a. rewrite (nth_map_in _ _ _ _ 0) by (now rewrite seq_length). now rewrite seq_nth.
      + rewrite less_axis_names by exact Rs. reflexivity. }
  assert (M0 : valid ms (map (fun _ => 0) ms)) by (clear -FP; induction FP; cbn; constructor; auto; lia).
  destruct (PE _ M0) as (env0 & I0 & P0 & Q0 & A0 & R0). destruct (G env0 I0) as (o & Er & _). exists o.
  rewrite <- (samples_on_in P R axis r x w y s env0 HV) in Er. fold a L in Er. rewrite A0, R0 in Er. split; [exact Er|].
  intros m Vm. destruct (PE m Vm) as (env & I & P1 & Q1 & A1 & R1). destruct (G env I) as (o' & Er' & Et).
  rewrite <- (samples_on_in P R axis r x w y s env HV) in Er'. fold a L in Er'. rewrite A1, R1 in Er'.
  unfold resampled in Er. rewrite Er in Er'. injection Er' as <-. rewrite map_app, P1, Q1 in Et. exact Et.
Qed.
Lemma resampled_nonneg {V} (R : reader V) freq i x w y r l : nonneg_entries w -> nonneg_entries freq ->
  all_nonneg (map snd (resampled freq i (samples_on R x w y r l))).
Proof.
  intros Hw Hf. unfold resampled. rewrite map_map. cbn [snd]. apply Forall_map, Forall_forall. intros [f [v q]] Hp. cbn [fst snd].
  pose proof (in_combine_l _ _ _ _ Hp) as P1. pose proof (in_combine_r _ _ _ _ Hp) as P2.
  assert (F : (0 <= f)%Qc).
  { unfold table in P1. destruct (le_lt_dec (shape_of freq 0) i) as [C|C].
    - rewrite nth_overflow in P1 by (now rewrite map_length, seq_length). destruct P1.
    - rewrite (nth_map_in _ _ _ _ 0) in P1 by (now rewrite seq_length). apply in_map_iff in P1. destruct P1 as (j & <- & _). now apply tget_nonneg. }
  assert (Q : (0 <= q)%Qc).
  { unfold samples_on in P2. apply in_map_iff in P2. destruct P2 as (j & E & _). injection E as _ <-. unfold sample_value. destruct (tndim w) as [|[|k]]; now apply tget_nonneg. }
  rewrite <- (Qcmult_0_l f). now apply Qcmult_le_compat_r.
Qed.
(* C130: each replicate is an object of the values with the weights multiplied by the
   counts of its row *)
Theorem wrap_resample_vals_moments : forall nmax n mom freq axis to_end r x w s, 1 <= n <= nmax ->
  mom = IInt (Z.of_nat n) \/ mom = IIter [Z.of_nat n] -> values_ok (packer1 n) axis r x w [] s -> nonneg_entries w ->
  tensor_ok freq -> tndim freq = 2 -> shape_of freq 1 = dim_from_end x r -> nonneg_entries freq ->
  exists c, c_wrap_resample_vals nmax mom freq axis to_end x w [] = Ok c /\
    holds_samples c (replicate_shape to_end (shape_of freq 0) r s) n
      (fun p => resampled freq (replicate_at to_end r p) (samples_on reader1 x w [] r (rest_at to_end r p))).
Proof.
  intros nmax n mom freq axis to_end r x w s Hn Em HV Hw Tf Nf Cf Pf. assert (N : mom_names nmax mom (pusher1 nmax n) (packer1 n) reader1) by (apply names_one; [lia|exact Em]).
  destruct (wrap_resample_vals_cells _ _ _ _ (va_one nmax n Hn) nmax mom freq axis to_end r x w [] s N HV Hw Tf Nf Cf Pf) as (c & E & H & G).
  exists c. split; [exact E|]. split; [exact H|]. intros p k Vp Hk Wp. destruct (G p Vp) as (o & Eo & Go). rewrite Go by (apply is_valid_one; lia).
  destruct (reduce_one nmax n _ Hn (resampled_nonneg reader1 freq (replicate_at to_end r p) x w [] r (rest_at to_end r p) Hw Pf)) as (o' & Eo' & Gk).
  rewrite Eo in Eo'. injection Eo' as <-. exact (proj1 (Gk k Hk) Wp).
Qed.
Theorem wrap_resample_vals_comoments : forall nmax n0 n1 freq axis to_end r x w y s, 1 <= n0 <= nmax -> 1 <= n1 <= nmax ->
  values_ok (packer2 n0 n1) axis r x w [y] s -> nonneg_entries w ->
  tensor_ok freq -> tndim freq = 2 -> shape_of freq 1 = dim_from_end x r -> nonneg_entries freq ->
  exists c, c_wrap_resample_vals nmax (IIter [Z.of_nat n0; Z.of_nat n1]) freq axis to_end x w [y] = Ok c /\
    holds_pairs c (replicate_shape to_end (shape_of freq 0) r s) n0 n1
      (fun p => resampled freq (replicate_at to_end r p) (samples_on reader2 x w [y] r (rest_at to_end r p))).
Proof.
  intros nmax n0 n1 freq axis to_end r x w y s H0 H1 HV Hw Tf Nf Cf Pf. set (mom := IIter _).
  assert (N : mom_names nmax mom (pusher2 nmax n0 n1) (packer2 n0 n1) reader2) by (apply names_two; [lia|lia|reflexivity]).
  destruct (wrap_resample_vals_cells _ _ _ _ (va_two nmax n0 n1 H0 H1) nmax mom freq axis to_end r x w [y] s N HV Hw Tf Nf Cf Pf) as (c & E & H & G).
  exists c. split; [exact E|]. split; [exact H|]. intros p i j Vp Hi Hj Wp. destruct (G p Vp) as (o & Eo & Go). rewrite Go by (apply is_valid_two; lia).
  destruct (reduce_two nmax n0 n1 _ H0 H1 (resampled_nonneg reader2 freq (replicate_at to_end r p) x w [y] r (rest_at to_end r p) Hw Pf)) as (o' & Eo' & Gk).
  rewrite Eo in Eo'. injection Eo' as <-. exact (proj1 (Gk i j Hi Hj) Wp).
Qed.
