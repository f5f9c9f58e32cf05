(* Concrete cases for functions along one dimension under other names (C201). *)
From Coq Require Import String.
From Verif Require Import Base BaseLemmas Checks ModelPush ModelKernels ModelIndex ModelAxes ModelParams ModelWrap ModelNd ModelLabel ModelSwap ModelMethodsX
  Spec SpecAxes SpecNd SpecLabel SpecLabelTwo PropLabelled ProofArrays PropAxes PropMethodsXCheck PropMethodsSCheck PropSwap PropSwapCheck PropSwapUse PropSwapRows.
Local Open Scope string_scope.
Local Open Scope nat_scope.

(* x and y of wx trade names *)
Example swap_rows_ex : let l := [("x", "y"); ("y", "x")] in let f := new_name l in let K := pusher1 5 2 in let P := packer1 2 in
  map (dim_size (cx_obj wx)) ["mom"] = pk_shape P /\ In "x" (x_dims (cx_obj wx)) /\ ~ In "x" ["mom"] /\ 0 < dim_size (cx_obj wx) "x" /\ f "x" = "y" /\
  let obj r := rmap (fun g => CX (to_xarr g) (cx_params wx)) r in
  let cum c d := obj (x_cumulative K P (params_for ["mom"]) false Missing (Val d) true (cx_obj c)) in
  let grp c d := obj (x_reduce_data_grouped K P (params_for ["mom"]) [1; 0]%Z None Missing (Val d) true (cx_obj c)) in
  let t := Tensor [2; 2; 3] [qz 1; qz 5; qz 9; qz 4; fr 13 2; fr 45 4; qz 2; qz 6; qz 10; qz 6; fr 22 3; fr 110 9] in
  let u := Tensor [2; 2; 3] (lz [3; 7; 11; 1; 5; 9; 4; 8; 12; 2; 6; 10]%Z) in
  cxeqb (cum wx "x") ["y"; "x"; "mom"] t = true /\ cxeqb (rbind (cx_swap_dims wx l true) (fun c => cum c "y")) ["x"; "y"; "mom"] t = true /\
  cxeqb (rbind (cx_swap_dims wx l true) (fun c => cum c "x")) ["y"; "x"; "mom"] t = false /\
  cxeqb (grp wx "x") ["y"; "x"; "mom"] u = true /\ cxeqb (rbind (cx_swap_dims wx l true) (fun c => grp c "y")) ["x"; "y"; "mom"] u = true.
Proof.
  intros l f K P. split; [reflexivity|]. split; [cbn; auto|]. split; [cbn; intuition discriminate|]. split; [vm_compute; lia|]. split; [reflexivity|]. intros obj cum grp t u. repeat split; vm_compute; reflexivity.
Qed.
(* rolling windows: both give a value, with nan where the window is not full *)
Example swap_rolling_ex : let l := [("x", "y"); ("y", "x")] in let K := pusher1 5 2 in let P := packer1 2 in (0 <= 2)%Z /\
  let show (r : res (lgrid (option Qc))) := match r with Ok g => Some (lg_dims g, gshape (lg_val g), map (option_map this) (gdata (lg_val g))) | Raise _ => None end in
  let rol c d := show (x_rolling_data K P (params_for ["mom"]) 2%Z None false false Missing (Val d) true (cx_obj c)) in
  match rol wx "x", cx_swap_dims wx l true with
  | Some (dx, sx, vx), Ok c => match rol c "y" with Some (dy, sy, vy) => dx = ["y"; "x"; "mom"] /\ dy = ["x"; "y"; "mom"] /\ sx = [2; 2; 3] /\ sy = sx /\ vy = vx /\ In None vx /\ In (Some (13 # 2)%Q) vx | None => False end
  | _, _ => False
  end.
Proof. intros l K P. split; [lia|]. vm_compute. intuition. Qed.
