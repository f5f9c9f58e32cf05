(* Concrete cases for sums and multiples of objects that hold a Dataset (C195). *)
From Coq Require Import String.
From Verif Require Import Base BaseLemmas Checks ModelPush ModelKernels ModelIndex ModelAccum ModelAxes ModelState ModelParams ModelNd ModelWrap ModelLabel ModelMoments ModelConstruct ModelMethodsX ModelMomentsX ModelDataset ModelMethodsS ModelMomentsS
  Spec SpecAxes SpecNd PropLabelled SpecLabel SpecMethodsX SpecMoments SpecDataset SpecMethodsS
  ProofArrays PropAxes PropLabelCheck PropMomentsXCheck PropDatasetCheck PropMethodsX PropMethodsXMore PropMethodsXCheck PropShapeCheck PropMethodsS PropMethodsSMore PropMethodsSCheck PropArithX PropArithS.
Local Open Scope string_scope.
Local Open Scope nat_scope.
Local Notation sn_ := ("n", (["x"], Tensor [2] (lz [7; 8]%Z))).

(* other weights than those of sc *)
Definition sd : csdata := CS [("b", XA ["mom"] (Tensor [2] (lz [1; 5]%Z))); ("n", sn); ("a", XA ["mom"; "x"] (Tensor [2; 2] (lz [3; 1; 3; 4]%Z)))] (params_for ["mom"]).
Lemma sd_holds : sholds sd ["mom"].
Proof.
  split; [arrays|]. split; [exact mom_names|]. split; [reflexivity|]. split; [exists ("b", XA ["mom"] (Tensor [2] (lz [1; 5]%Z))); split; [now left|reflexivity]|].
  intros v n Iv M Hn. cbn in Iv, Hn. each_in; try discriminate M; cbn; lia.
Qed.
Lemma sc_sd : set_pair sc sd ["mom"].
Proof. split; [exact sc_holds|]. split; [exact sd_holds|]. split; [fitset|]. exists ("b", sb). split; [cbn; auto|]. split; reflexivity. Qed.
Lemma so_sd : set_pair so sd ["mom"].
Proof. split; [exact so_holds|]. split; [exact sd_holds|]. split; [fitset|]. exists ("b", XA ["mom"] (Tensor [2] (lz [4; 5]%Z))). split; [cbn; auto|]. split; reflexivity. Qed.

Ltac same_form := let n := fresh in let H := fresh in split; [reflexivity|]; split; [intros n; cbn; tauto|intros n H; cbn in H; each_in; reflexivity].
Lemma sc_parts o n : o = so \/ o = sd -> n = "a" \/ n = "b" -> alike P1 (other_part sc n) (other_part o n) ["mom"].
Proof.
  intros Ho Hn. assert (E : forall c, c = sc \/ c = so \/ c = sd -> xholds (other_part c n) ["mom"]).
  { intros c Hc. assert (Hs : sholds c ["mom"]) by (destruct Hc as [-> | [-> | ->]]; [exact sc_holds|exact so_holds|exact sd_holds]).
    assert (G : exists x, In (n, x) (cs_obj c) /\ has_names ["mom"] x = true) by (destruct Hc as [-> | [-> | ->]], Hn as [-> | ->]; cbn; eexists; (split; [eauto|reflexivity])).
    destruct G as (x & Ix & M). pose proof (get_own ["mom"] c (n, x) Hs Ix) as Q. cbn [fst] in Q. rewrite Q. exact (by_itself_holds c ["mom"] (n, x) Hs Ix M). }
  split; [apply E; auto|]. split; [apply E; destruct Ho; auto|]. destruct Ho as [-> | ->], Hn as [-> | ->]; same_form.
Qed.
Lemma sc_addable o : o = so \/ o = sd -> all_addable P1 ["mom"] sc o.
Proof.
  intros Ho v Iv M _. cbn in Iv. each_in; try discriminate M; apply alike_addable; [exact (sc_parts o "a" Ho (or_introl eq_refl))|exact (sc_parts o "b" Ho (or_intror eq_refl))].
Qed.

(* C195: a difference that exists, and one where no weight is left *)
Example subtract_set_is_add_ex : set_pair sc sd ["mom"] /\ all_addable P1 ["mom"] sc sd /\ set_pair sc so ["mom"] /\ all_addable P1 ["mom"] sc so /\ forall stretch,
  let l := [("a", (["x"; "mom"], Tensor [2; 2] (lz [-2; 4; 1; 0]%Z))); ("b", (["mom"], Tensor [2] [qz 3; fr 7 3])); sn_] in
  cseqb (cs_sub K1 P1 stretch sc sd) l = true /\ cseqb (rbind (cs_mul sd (-(1))%Qc) (fun o => cs_add K1 P1 stretch sc o)) l = true /\
  cs_sub K1 P1 stretch sc so = Raise EZeroDiv /\ rbind (cs_mul so (-(1))%Qc) (fun o => cs_add K1 P1 stretch sc o) = Raise EZeroDiv.
Proof.
  split; [exact sc_sd|]. split; [apply sc_addable; now right|]. split; [apply sums_set_ex|]. split; [apply sc_addable; now left|]. intros [|]; repeat split; vm_compute; reflexivity.
Qed.
Example multiply_set_distributes_ex : set_pair sc so ["mom"] /\ all_addable P1 ["mom"] sc so /\ qz 10 <> 0%Qc /\ forall stretch,
  let l := [("a", (["x"; "mom"], Tensor [2; 2] (lz [20; 2; 40; 3]%Z))); ("b", (["mom"], Tensor [2] (lz [80; 4]%Z))); sn_] in
  cseqb (rbind (cs_mul sc (qz 10)) (fun c => rbind (cs_mul so (qz 10)) (fun o => cs_add K1 P1 stretch c o))) l = true /\
  cseqb (rbind (cs_add K1 P1 stretch sc so) (fun r => cs_mul r (qz 10))) l = true.
Proof.
  split; [apply sums_set_ex|]. split; [apply sc_addable; now left|]. split; [intros H; discriminate H|]. intros [|]; split; vm_compute; reflexivity.
Qed.
Example add_set_associative_ex : set_pair sc so ["mom"] /\ set_pair so sd ["mom"] /\ set_pair sc sd ["mom"] /\
  (forall v, In v (cs_obj sc) -> part_has ["mom"] (fst v) (DSet (cs_obj so)) = has_names ["mom"] (snd v) /\ part_has ["mom"] (fst v) (DSet (cs_obj sd)) = has_names ["mom"] (snd v)) /\
  (forall v, In v (cs_obj sc) -> has_names ["mom"] (snd v) = true ->
     let x := other_part sc (fst v) in let y := other_part so (fst v) in let z := other_part sd (fst v) in alike P1 x y ["mom"] /\ alike P1 y z ["mom"] /\
     forall env, inside_names (dim_size (snd v)) (except_name (x_dims (snd v)) ["mom"]) env -> forall o, In o [x; y; z] -> clean K1 (moments_named P1 (cx_obj o) ["mom"] env) /\ (0 <= p_wt K1 (moments_named P1 (cx_obj o) ["mom"] env))%Qc) /\
  forall stretch, let l := [("a", (["x"; "mom"], Tensor [2; 2] [qz 5; fr 13 5; qz 5; fr 16 5])); ("b", (["mom"], Tensor [2] [qz 9; fr 37 9])); sn_] in
  cseqb (rbind (cs_add K1 P1 stretch sc so) (fun r => cs_add K1 P1 stretch r sd)) l = true /\ cseqb (rbind (cs_add K1 P1 stretch so sd) (fun r => cs_add K1 P1 stretch sc r)) l = true.
Proof.
  split; [apply sums_set_ex|]. split; [exact so_sd|]. split; [exact sc_sd|]. split; [intros v Iv; cbn in Iv; each_in; split; reflexivity|]. split.
  - intros v Iv M x y z.
    assert (Hn : fst v = "a" \/ fst v = "b") by (cbn in Iv; each_in; try discriminate M; cbn; auto).
    pose proof (sc_parts so _ (or_introl eq_refl) Hn) as H1. pose proof (sc_parts sd _ (or_intror eq_refl) Hn) as H2.
    split; [exact H1|]. split; [exact (alike_trans P1 _ _ _ _ (alike_sym P1 _ _ _ H1) H2)|]. intros env He o Ho. cbn in Iv. each_in; try discriminate M; unfold x, y, z in Ho; cbn in Ho.
    + specialize (He "x" ltac:(now left)). change (dim_size (snd ("a", sa)) "x") with 2 in He.
      each_in; unfold moments_named, clean, pk_pack, P1, packer1, p_wt, K1, pusher1; cbn; unfold x_at; cbn; destruct (env "x") as [|[|k]]; try lia; (split; [intros E; discriminate E|vm_compute; discriminate]).
    + each_in; unfold moments_named, clean, pk_pack, P1, packer1, p_wt, K1, pusher1; cbn; unfold x_at; cbn; (split; [intros E; discriminate E|vm_compute; discriminate]).
  - intros [|]; split; vm_compute; reflexivity.
Qed.
