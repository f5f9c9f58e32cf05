(* The statistics of an object whose moment arrays are those of samples
   (C129). *)
From Coq Require Import String.
From Verif Require Import Base BaseLemmas Shift ModelPush ModelPushCov ModelConvert ProofPush ProofPushCov ProofConvert ModelKernels ModelIndex ModelAxes ModelState ModelParams
  ModelNd ModelWrap ModelMethods ModelMoments ModelConstruct
  Spec SpecAxes SpecNd SpecMethods SpecMoments ProofSpec ProofAxes ProofArrays ProofMulti ProofNd PropReduce PropAxes PropNd ProofNdVals PropNdVals PropNdValsUse PropWrap ProofMoments
  PropConvert PropMoments PropSelect PropAssign PropConstruct PropConstructUse Checks.
Local Notation length := List.length (only parsing).
Local Open Scope nat_scope.

(* the array r gives, over the positions vs, is f of the samples at the position
   wherever these have a weight *)
Definition tells {T} (sam : list nat -> T) (weighted : T -> Prop) (vs qs : list nat) (r : res tensor) (f : T -> list nat -> Qc) : Prop :=
  exists out, r = Ok out /\ tensor_ok out /\ tshape out = vs ++ qs /\
    forall p q, valid vs p -> valid qs q -> weighted (sam p) -> tget out (p ++ q) = f (sam p) q.
(* the object holds the moments of order n of the samples at each position *)
Definition holds_samples (c : cmarray) (vs : list nat) (n : nat) (sam : list nat -> list (Qc * Qc)) : Prop :=
  holds c vs [S n] /\ forall p k, valid vs p -> k <= n -> W1 (sam p) <> 0%Qc ->
    mom_entry c p [k] = match k with 0 => W1 (sam p) | 1 => mean1 (sam p) | _ => central1 (sam p) k end.
Definition holds_pairs (c : cmarray) (vs : list nat) (n0 n1 : nat) (sam : list nat -> list ((Qc * Qc) * Qc)) : Prop :=
  holds c vs [S n0; S n1] /\ forall p i j, valid vs p -> i <= n0 -> j <= n1 -> W2 (sam p) <> 0%Qc ->
    mom_entry c p [i; j] = comoment_entry (sam p) i j.

Lemma tells_select {T} (sam : list nat -> T) (weighted : T -> Prop) c vs ms name squeeze qs at_ f : holds c vs ms ->
  In (name, (qs, at_)) (moment_names squeeze ms) -> all_exist ms qs at_ ->
  (forall p q, valid vs p -> valid qs q -> weighted (sam p) -> mom_entry c p (at_ q) = f (sam p) q) ->
  tells sam weighted vs qs (c_select_moment c name squeeze) f.
Proof.
  intros H I E G. destruct (object_select c vs ms H name squeeze qs at_ I E) as (out & E1 & T1 & S1 & G1). exists out. split; [exact E1|]. split; [exact T1|]. split; [exact S1|].
  intros p q Vp Vq Wp. rewrite G1 by assumption. now apply G.
Qed.
Lemma valid_one n q : valid [n] q -> exists k, q = [k] /\ k < n.
Proof. intros Vq. inversion Vq as [|? k ? q' Hk Vq']; subst. inversion Vq'; subst. eauto. Qed.
Lemma valid_two n0 n1 q : valid [n0; n1] q -> exists i j, q = [i; j] /\ i < n0 /\ j < n1.
Proof. intros Vq. inversion Vq as [|? k ? q' Hk Vq']; subst. destruct (valid_one _ _ Vq') as (j & -> & Hj). eauto 6. Qed.
Lemma is_valid_one n k : k < n -> valid [n] [k].
Proof. intros. constructor; [assumption|constructor]. Qed.
Lemma is_valid_two n0 n1 i j : i < n0 -> j < n1 -> valid [n0; n1] [i; j].
Proof. intros. constructor; [assumption|now apply is_valid_one]. Qed.

Lemma raw_of_samples n s f : (W1 s <> 0)%Qc -> (forall k, k <= n -> f [k] = match k with 0 => W1 s | 1 => mean1 s | _ => central1 s k end) -> 1 <= n ->
  forall k, k <= n -> raw_of f [k] = match k with 0 => W1 s | _ => power_mean s k end.
Proof.
  intros N F Hn k Hk. unfold raw_of. cbn [fold_right length averages]. rewrite Nat.add_0_r. destruct k as [|[|k]].
  - cbn [Nat.leb]. apply (F 0). lia.
  - cbn [Nat.leb]. rewrite (F 1) by lia. unfold mean1, power_mean. f_equal. apply suml_ext. intros p _. cbn. ring.
  - cbn [Nat.leb moved_moment]. rewrite (F 1) by lia. unfold power_mean. rewrite <- shift_central1 by exact N. rewrite shift_binom. apply sumn_ext. intros i Hi. f_equal.
    unfold central_normal. cbn [fold_right]. rewrite Nat.add_0_r. destruct (S (S k) - i) as [|[|d]] eqn:E; [now rewrite central1_0|now rewrite central1_1|]. apply (F (S (S d))). lia.
Qed.
Lemma raw_of_pairs n0 n1 s f : (W2 s <> 0)%Qc -> (forall i j, i <= n0 -> j <= n1 -> f [i; j] = comoment_entry s i j) -> 1 <= n0 -> 1 <= n1 ->
  forall i j, i <= n0 -> j <= n1 -> raw_of f [i; j] = match i + j with 0 => W2 s | _ => power_mean2 s i j end.
Proof.
  intros N F H0 H1 i j Hi Hj. unfold raw_of. cbn [fold_right length averages]. rewrite Nat.add_0_r. destruct (Nat.leb_spec (i + j) 1) as [L|L].
  - rewrite F by assumption. destruct i as [|[|i]], j as [|[|j]]; try lia; cbn [comoment_entry Nat.add]; try reflexivity.
    + unfold meany, power_mean2. f_equal. apply suml_ext. intros p _. cbn. ring.
    + unfold meanx, power_mean2. f_equal. apply suml_ext. intros p _. cbn. ring.
  - cbn [moved_moment]. rewrite (F 1 0), (F 0 1) by lia. cbn [comoment_entry]. destruct (i + j) as [|d] eqn:Eij; [lia|]. unfold power_mean2. rewrite <- shift_central2 by exact N.
    rewrite shift2_binom. apply sumn_ext. intros b0 B0. apply sumn_ext. intros b1 B1. f_equal.
    unfold central_normal. cbn [fold_right]. rewrite Nat.add_0_r. set (u := i - b0). set (v := j - b1). destruct (u + v) as [|[|e]] eqn:E.
    + replace u with 0 by lia. replace v with 0 by lia. now rewrite central2_00.
    + destruct u as [|[|u']] eqn:Eu; [replace v with 1 by lia; now rewrite central2_01|replace v with 0 by lia; now rewrite central2_10|lia].
    + rewrite F by (unfold u, v; lia). destruct u as [|[|u']] eqn:Eu, v as [|[|v']] eqn:Ev; try lia; reflexivity.
Qed.
Lemma central_normal_one s f k : (W1 s <> 0)%Qc -> (2 <= k -> f [k] = central1 s k) -> central_normal f [k] = central1 s k.
Proof.
  intros N F. unfold central_normal. cbn [fold_right]. rewrite Nat.add_0_r. destruct k as [|[|k]]; [now rewrite central1_0|now rewrite central1_1|apply F; lia].
Qed.
Lemma central_normal_two s f i j : (W2 s <> 0)%Qc -> (2 <= i + j -> f [i; j] = central2 s i j) -> central_normal f [i; j] = central2 s i j.
Proof.
  intros N F. unfold central_normal. cbn [fold_right]. rewrite Nat.add_0_r. destruct (i + j) as [|[|e]] eqn:E; [| |apply F; lia].
  - replace i with 0 by lia. replace j with 0 by lia. now rewrite central2_00.
  - destruct i as [|[|i]]; [replace j with 1 by lia; now rewrite central2_01|replace j with 0 by lia; now rewrite central2_10|lia].
Qed.

(* C129: the statistics of an object that holds the moments of samples *)
Section One.
  Context (nmax n : nat) (c : cmarray) (vs : list nat) (sam : list nat -> list (Qc * Qc)).
  Hypothesis Hn : 1 <= n <= nmax.
  Hypothesis H : holds_samples c vs n sam.
  Local Notation told := (tells sam (fun s => W1 s <> 0%Qc) vs).

  Theorem statistics_of_samples :
    told [] (c_weight c) (fun s _ => W1 s) /\
    told [] (c_mean c true) (fun s _ => mean1 s) /\
    told [1] (c_mean c false) (fun s _ => mean1 s) /\
    (2 <= n -> told [] (c_var c true) (fun s _ => central1 s 2) /\ told [] (c_cov c) (fun s _ => central1 s 2)) /\
    (n = 1 -> c_var c true = Raise EIndex /\ c_cov c = Raise EIndex) /\
    told [S n] (c_cmom c) (fun s q => central1 s (hd 0 q)) /\
    told [S n] (c_rmom nmax c) (fun s q => power_mean s (hd 0 q)) /\
    told [S n] (c_to_raw nmax c None) (fun s q => match hd 0 q with 0 => W1 s | k => power_mean s k end) /\
    (forall w, fits_over vs w -> exists out, c_to_raw nmax c (Some w) = Ok out /\ tensor_ok out /\ tshape out = vs ++ [S n] /\
      forall p k, valid vs p -> k <= n ->
        (k = 0 -> tget out (p ++ [k]) = value_over w p) /\ (k <> 0 -> W1 (sam p) <> 0%Qc -> tget out (p ++ [k]) = power_mean (sam p) k)).
  Proof.
    destruct H as (HH & G).
    assert (Fit : Forall (fun k => k <= S nmax) [S n]) by (constructor; [lia|constructor]).
    split; [|split; [|split; [|split; [|split; [|split; [|split; [|split]]]]]]].
    - apply (tells_select _ _ _ _ [S n] "weight" true [] (fun _ => [0])); [exact HH|cbn; auto|intros q _; apply is_valid_one; lia|].
      intros p q Vp _ Wp. exact (G p 0 Vp ltac:(lia) Wp).
    - apply (tells_select _ _ _ _ [S n] "ave" true [] (fun _ => [1])); [exact HH|cbn; auto|intros q _; apply is_valid_one; lia|].
      intros p q Vp _ Wp. exact (G p 1 Vp ltac:(lia) Wp).
    - apply (tells_select _ _ _ _ [S n] "ave" false [1] (fun _ => [1])); [exact HH|cbn; auto|intros q _; apply is_valid_one; lia|].
      intros p q Vp _ Wp. exact (G p 1 Vp ltac:(lia) Wp).
    - intros H2. split.
      + apply (tells_select _ _ _ _ [S n] "var" true [] (fun _ => [2])); [exact HH|cbn; auto|intros q _; apply is_valid_one; lia|].
        intros p q Vp _ Wp. exact (G p 2 Vp ltac:(lia) Wp).
      + apply (tells_select _ _ _ _ [S n] "cov" true [] (fun _ => [2])); [exact HH|cbn; auto 9|intros q _; apply is_valid_one; lia|].
        intros p q Vp _ Wp. exact (G p 2 Vp ltac:(lia) Wp).
    - intros ->. split.
      + apply (object_select_missing c vs [2] HH "var" true [] (fun _ => [2])); [cbn; auto|]. intros X. specialize (X [] ltac:(constructor)).
        inversion X as [|? ? ? ? Y _]; subst. lia.
      + apply (object_select_missing c vs [2] HH "cov" true [] (fun _ => [2])); [cbn; auto 9|]. intros X. specialize (X [] ltac:(constructor)).
        inversion X as [|? ? ? ? Y _]; subst. lia.
    - destruct (object_cmom c vs [S n] HH) as (out & E & T & S' & G1). exists out. split; [exact E|]. split; [exact T|]. split; [exact S'|].
      intros p q Vp Vq Wp. rewrite G1 by assumption. destruct (valid_one _ _ Vq) as (k & -> & Hk). cbn [hd]. apply central_normal_one; [exact Wp|].
      intros Hk2. rewrite G by (assumption || lia). destruct k as [|[|k]]; [lia|lia|reflexivity].
    - destruct (object_rmom c vs [S n] HH nmax Fit) as (out & E & T & S' & G1). exists out. split; [exact E|]. split; [exact T|]. split; [exact S'|].
      intros p q Vp Vq Wp. rewrite G1 by assumption. destruct (valid_one _ _ Vq) as (k & -> & Hk). cbn [hd]. unfold raw_normal. cbn [forallb]. destruct k as [|k]; cbn [Nat.eqb andb].
      + unfold power_mean. cbn [Qcpower]. rewrite (suml_ext _ (fun p => snd p)) by (intros; ring). fold (W1 (sam p)). now field.
      + rewrite (raw_of_samples n (sam p)) by (assumption || lia || (intros; now apply G)). reflexivity.
    - destruct (object_to_raw c vs [S n] HH nmax Fit) as (out & E & T & S' & G1). exists out. split; [exact E|]. split; [exact T|]. split; [exact S'|].
      intros p q Vp Vq Wp. rewrite G1 by assumption. destruct (valid_one _ _ Vq) as (k & -> & Hk). cbn [hd].
      rewrite (raw_of_samples n (sam p)) by (assumption || lia || (intros; now apply G)). now destruct k.
    - intros w F. destruct (object_to_raw_weight c vs [S n] HH nmax Fit w F) as (out & E & T & S' & Y). exists out. split; [exact E|]. split; [exact T|]. split; [exact S'|].
      intros p k Vp Hk. rewrite Y by (exact Vp || apply is_valid_one; lia). cbn [forallb]. split.
      + intros ->. reflexivity.
      + intros Nk Wp. destruct k as [|k]; [lia|]. cbn [Nat.eqb andb]. rewrite (raw_of_samples n (sam p)) by (assumption || lia || (intros; now apply G)). reflexivity.
  Qed.
End One.

Section Two.
  Context (nmax n0 n1 : nat) (c : cmarray) (vs : list nat) (sam : list nat -> list ((Qc * Qc) * Qc)).
  Hypothesis H0 : 1 <= n0 <= nmax.
  Hypothesis H1 : 1 <= n1 <= nmax.
  Hypothesis H : holds_pairs c vs n0 n1 sam.
  Local Notation told := (tells sam (fun s => W2 s <> 0%Qc) vs).

  Theorem statistics_of_pairs : forall squeeze,
    told [] (c_weight c) (fun s _ => W2 s) /\
    told [2] (c_mean c squeeze) (fun s q => match q with [0] => meanx s | _ => meany s end) /\
    (2 <= n0 -> 2 <= n1 -> told [2] (c_var c squeeze) (fun s q => match q with [0] => central2 s 2 0 | _ => central2 s 0 2 end)) /\
    (n0 = 1 \/ n1 = 1 -> c_var c squeeze = Raise EIndex) /\
    told [] (c_cov c) (fun s _ => central2 s 1 1) /\
    told [S n0; S n1] (c_cmom c) (fun s q => central2 s (nth 0 q 0) (nth 1 q 0)) /\
    told [S n0; S n1] (c_rmom nmax c) (fun s q => power_mean2 s (nth 0 q 0) (nth 1 q 0)) /\
    told [S n0; S n1] (c_to_raw nmax c None) (fun s q => match q with [0; 0] => W2 s | _ => power_mean2 s (nth 0 q 0) (nth 1 q 0) end) /\
    (forall w, fits_over vs w -> exists out, c_to_raw nmax c (Some w) = Ok out /\ tensor_ok out /\ tshape out = vs ++ [S n0; S n1] /\
      forall p i j, valid vs p -> i <= n0 -> j <= n1 ->
        (i + j = 0 -> tget out (p ++ [i; j]) = value_over w p) /\ (i + j <> 0 -> W2 (sam p) <> 0%Qc -> tget out (p ++ [i; j]) = power_mean2 (sam p) i j)).
  Proof.
    intros squeeze. destruct H as (HH & G).
    assert (Fit : Forall (fun k => k <= S nmax) [S n0; S n1]) by (constructor; [lia|]; constructor; [lia|constructor]).
    assert (Q : forall q, valid [2] q -> q = [0] \/ q = [1]).
    { intros q Vq. destruct (valid_one _ _ Vq) as (k & -> & Hk). destruct k as [|[|k]]; [auto|auto|lia]. }
    assert (R : forall p, valid vs p -> W2 (sam p) <> 0%Qc -> forall i j, i <= n0 -> j <= n1 -> raw_of (mom_entry c p) [i; j] = match i + j with 0 => W2 (sam p) | _ => power_mean2 (sam p) i j end).
    { intros p Vp Wp. apply (raw_of_pairs n0 n1); [exact Wp| |lia|lia]. intros; now apply G. }
    split; [|split; [|split; [|split; [|split; [|split; [|split; [|split]]]]]]].
    - apply (tells_select _ _ _ _ [S n0; S n1] "weight" true [] (fun _ => [0; 0])); [exact HH|cbn; auto|intros q _; apply is_valid_two; lia|].
      intros p q Vp _ Wp. exact (G p 0 0 Vp ltac:(lia) ltac:(lia) Wp).
    - apply (tells_select _ _ _ _ [S n0; S n1] "ave" squeeze [2] (fun q => nth (hd 0 q) [[1; 0]; [0; 1]] [])); [exact HH|cbn; auto| |].
      + intros q Vq. destruct (Q q Vq) as [-> | ->]; apply is_valid_two; lia.
      + intros p q Vp Vq Wp. destruct (Q q Vq) as [-> | ->]; cbn [hd nth]; rewrite G by (assumption || lia); reflexivity.
    - intros A B. apply (tells_select _ _ _ _ [S n0; S n1] "var" squeeze [2] (fun q => nth (hd 0 q) [[2; 0]; [0; 2]] [])); [exact HH|cbn; auto| |].
      + intros q Vq. destruct (Q q Vq) as [-> | ->]; apply is_valid_two; lia.
      + intros p q Vp Vq Wp. destruct (Q q Vq) as [-> | ->]; cbn [hd nth]; rewrite G by (assumption || lia); reflexivity.
    - intros A. apply (object_select_missing c vs [S n0; S n1] HH "var" squeeze [2] (fun q => nth (hd 0 q) [[2; 0]; [0; 2]] [])); [cbn; auto|].
      intros X. pose proof (X [0] (is_valid_one 2 0 ltac:(lia))) as X0. pose proof (X [1] (is_valid_one 2 1 ltac:(lia))) as X1. cbn [hd nth] in X0, X1.
      destruct (valid_two _ _ _ X0) as (i & j & E & Hi & _). injection E as <- <-. destruct (valid_two _ _ _ X1) as (i & j & E & _ & Hj). injection E as <- <-. lia.
    - apply (tells_select _ _ _ _ [S n0; S n1] "cov" true [] (fun _ => [1; 1])); [exact HH|cbn; auto 12|intros q _; apply is_valid_two; lia|].
      intros p q Vp _ Wp. exact (G p 1 1 Vp ltac:(lia) ltac:(lia) Wp).
    - destruct (object_cmom c vs _ HH) as (out & E & T & S' & G1). exists out. split; [exact E|]. split; [exact T|]. split; [exact S'|].
      intros p q Vp Vq Wp. rewrite G1 by assumption. destruct (valid_two _ _ _ Vq) as (i & j & -> & Hi & Hj). cbn [nth]. apply central_normal_two; [exact Wp|].
      intros Hij. rewrite G by (assumption || lia). destruct i as [|[|i]], j as [|[|j]]; try lia; reflexivity.
    - destruct (object_rmom c vs _ HH nmax Fit) as (out & E & T & S' & G1). exists out. split; [exact E|]. split; [exact T|]. split; [exact S'|].
      intros p q Vp Vq Wp. rewrite G1 by assumption. destruct (valid_two _ _ _ Vq) as (i & j & -> & Hi & Hj). cbn [nth]. unfold raw_normal. cbn [forallb].
      rewrite (R p Vp Wp) by lia. destruct i as [|i], j as [|j]; cbn [Nat.eqb andb Nat.add]; try reflexivity.
      unfold power_mean2. cbn [Qcpower]. rewrite (suml_ext _ (fun p => snd p)) by (intros; ring). fold (W2 (sam p)). now field.
    - destruct (object_to_raw c vs _ HH nmax Fit) as (out & E & T & S' & G1). exists out. split; [exact E|]. split; [exact T|]. split; [exact S'|].
      intros p q Vp Vq Wp. rewrite G1 by assumption. destruct (valid_two _ _ _ Vq) as (i & j & -> & Hi & Hj). cbn [nth].
      rewrite (R p Vp Wp) by lia. destruct i as [|i], j as [|j]; reflexivity.
    - intros w F. destruct (object_to_raw_weight c vs _ HH nmax Fit w F) as (out & E & T & S' & Y). exists out. split; [exact E|]. split; [exact T|]. split; [exact S'|].
      intros p i j Vp Hi Hj. rewrite Y by (exact Vp || apply is_valid_two; lia). cbn [forallb]. split.
      + intros Z. replace i with 0 by lia. replace j with 0 by lia. reflexivity.
      + intros Z Wp. rewrite (R p Vp Wp) by lia. destruct i as [|i], j as [|j]; try lia; reflexivity.
  Qed.
End Two.
