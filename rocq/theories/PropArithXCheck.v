(* Concrete cases for the laws of arithmetic of labelled objects and Datasets (C192). *)
From Coq Require Import String.
From Verif Require Import Base BaseLemmas Checks ModelPush ModelKernels ModelIndex ModelAccum ModelAxes ModelState ModelParams ModelNd ModelWrap ModelLabel ModelMoments ModelConstruct ModelMethodsX ModelMomentsX ModelDataset ModelMethodsS ModelMomentsS
  Spec SpecAxes SpecNd PropLabelled SpecLabel SpecMethodsX SpecMoments SpecDataset SpecMethodsS
  ProofArrays PropAxes PropLabelCheck PropMomentsXCheck PropDatasetCheck PropMethodsX PropMethodsXMore PropMethodsXCheck PropShapeCheck PropMethodsS PropMethodsSMore PropMethodsSCheck PropArithX.
Local Open Scope string_scope.
Local Open Scope nat_scope.
Local Notation KK := (pusher1 5 2).
Local Notation PP := (packer1 2).
Local Notation two := (1 + 1)%Qc.

Example add_named_to_itself_ex : xholds cxa ["mom"] /\ map (dim_size (cx_obj cxa)) ["mom"] = pk_shape PP /\
  let t := Tensor [3; 3] (lz [2; 1; 2; 4; 2; 2; 8; 3; 2]%Z) in
  forall stretch, cxeqb (cx_add KK PP stretch cxa cxa) ["x"; "mom"] t = true /\ cxeqb (cx_mul cxa two) ["x"; "mom"] t = true.
Proof.
  split; [apply cxa_holds|]. split; [apply cxa_holds|]. intros t [|]; split; vm_compute; reflexivity.
Qed.
(* a difference that exists, and one that has no weight left at the first two positions *)
Definition cxc : cmdata := CX (XA ["x"; "mom"] (Tensor [3; 3] (lz [3; 1; 0; 4; 1; 3; 1; 0; 0]%Z))) (params_for ["mom"]).
Example subtract_named_is_add_ex : addable PP cxa ["mom"] cxc ["mom"] /\ addable PP cxa ["mom"] cxb ["mom"] /\
  forall stretch, let t := Tensor [3; 3] [qz (-2); qz 1; qz (-1); qz (-2); qz 0; qz 2; qz 3; qz 4; fr (-4) 3] in
  cxeqb (cx_sub KK PP stretch cxa cxc) ["x"; "mom"] t = true /\
  cxeqb (rbind (cx_mul cxc (-(1))%Qc) (fun o => cx_add KK PP stretch cxa o)) ["x"; "mom"] t = true /\
  cx_sub KK PP stretch cxa cxb = Raise EZeroDiv /\ rbind (cx_mul cxb (-(1))%Qc) (fun o => cx_add KK PP stretch cxa o) = Raise EZeroDiv.
Proof.
  split; [|split; [apply alike_addable, add_named_ex|]].
  - apply alike_addable. split; [apply cxa_holds|]. split; [|split; [reflexivity|]; split; [cbn; tauto|intros n [<-|[<-|[]]]; reflexivity]].
    split; [one_arr|]. split; [nodup|]. split; [now left|]. split; [intros n [<-|[]]; right; now left|]. split; [|reflexivity]. apply Forall_cons; [vm_compute; lia|apply Forall_nil].
  - intros [|]; repeat split; vm_compute; reflexivity.
Qed.
Example multiply_named_distributes_ex : qz 10 <> 0%Qc /\
  let t := Tensor [3; 3] [qz 20; qz 1; qz 1; qz 40; fr 3 2; fr 11 4; qz 50; fr 12 5; fr 76 25] in
  forall stretch, cxeqb (rbind (cx_mul cxa (qz 10)) (fun c => rbind (cx_mul cxb (qz 10)) (fun o => cx_add KK PP stretch c o))) ["x"; "mom"] t = true /\
    cxeqb (rbind (cx_add KK PP stretch cxa cxb) (fun r => cx_mul r (qz 10))) ["x"; "mom"] t = true.
Proof.
  split; [intros H; discriminate H|]. intros t [|]; split; vm_compute; reflexivity.
Qed.
Example add_named_associative_ex : alike PP cxa cxb ["mom"] /\ alike PP cxb cxa ["mom"] /\
  (forall env, inside_names (dim_size (cx_obj cxa)) (except_name (x_dims (cx_obj cxa)) ["mom"]) env -> forall c, In c [cxa; cxb] -> clean KK (moments_named PP (cx_obj c) ["mom"] env) /\ (0 <= p_wt KK (moments_named PP (cx_obj c) ["mom"] env))%Qc) /\
  let t := Tensor [3; 3] [qz 3; qz 1; fr 4 3; qz 6; fr 5 3; fr 23 9; qz 9; fr 8 3; fr 8 3] in
  forall stretch, cxeqb (rbind (cx_add KK PP stretch cxa cxb) (fun r => cx_add KK PP stretch r cxa)) ["x"; "mom"] t = true /\
    cxeqb (rbind (cx_add KK PP stretch cxb cxa) (fun r => cx_add KK PP stretch cxa r)) ["x"; "mom"] t = true.
Proof.
  split; [apply add_named_ex|]. split; [apply alike_sym, add_named_ex|]. split.
  - intros env H c Hc. specialize (H "x" ltac:(now left)). change (dim_size (cx_obj cxa) "x") with 3 in H.
    destruct Hc as [<-|[<-|[]]]; unfold moments_named, clean, pk_pack, packer1, p_wt, pusher1; cbn; unfold x_at; cbn; destruct (env "x") as [|[|[|k]]]; [| | |lia| | | |lia]; (split; [intros E; discriminate E|vm_compute; discriminate]).
  - intros t [|]; split; vm_compute; reflexivity.
Qed.
Example add_set_to_itself_ex : sholds sc ["mom"] /\ (forall v, In v (cs_obj sc) -> has_names ["mom"] (snd v) = true -> map (dim_size (snd v)) ["mom"] = pk_shape P1) /\
  let l := [("a", (["x"; "mom"], Tensor [2; 2] (lz [2; 1; 4; 2]%Z))); ("b", (["mom"], Tensor [2] (lz [8; 3]%Z))); ("n", (["x"], Tensor [2] (lz [7; 8]%Z)))] in
  forall stretch, cseqb (cs_add K1 P1 stretch sc sc) l = true /\ cseqb (cs_mul sc two) l = true.
Proof.
  split; [exact sc_holds|]. split; [intros v Iv M; cbn in Iv; each_in; try discriminate M; reflexivity|]. intros l [|]; split; vm_compute; reflexivity.
Qed.
