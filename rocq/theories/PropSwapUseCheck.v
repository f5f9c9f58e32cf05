(* A concrete case for reductions under other names (C200). *)
From Coq Require Import String.
From Verif Require Import Base BaseLemmas Checks ModelPush ModelKernels ModelIndex ModelAxes ModelParams ModelWrap ModelNd ModelLabel ModelSwap ModelMethodsX
  Spec SpecAxes SpecNd SpecLabel SpecLabelTwo PropLabelled ProofArrays PropAxes PropMethodsXCheck PropMethodsSCheck PropSwap PropSwapCheck PropSwapUse.
Local Open Scope string_scope.
Local Open Scope nat_scope.

(* x and y of wx trade names: reducing along x before is reducing along y after *)
Example swap_reduce_ex : let l := [("x", "y"); ("y", "x")] in let f := new_name l in let K := pusher1 5 2 in let P := packer1 2 in
  map (dim_size (cx_obj wx)) ["mom"] = pk_shape P /\ NoDup ["x"] /\ incl ["x"] (x_dims (cx_obj wx)) /\ map f ["x"] = ["y"] /\
  let red c d := rmap (fun g => CX (to_xarr g) (cx_params wx)) (x_reduce_data K P (params_for ["mom"]) Missing (Val (DSeq [d])) false true (cx_obj c)) in
  let t := Tensor [2; 3] [qz 4; fr 13 2; fr 45 4; qz 6; fr 22 3; fr 110 9] in
  cxeqb (red wx "x") ["y"; "mom"] t = true /\ cxeqb (rbind (cx_swap_dims wx l true) (fun c => red c "y")) ["x"; "mom"] t = true /\
  cxeqb (rbind (cx_swap_dims wx l true) (fun c => red c "x")) ["y"; "mom"] t = false.
Proof.
  intros l f K P. split; [reflexivity|]. split; [nodup|]. split; [intros n [<-|[]]; cbn; auto|]. split; [reflexivity|]. intros red t. repeat split; vm_compute; reflexivity.
Qed.
